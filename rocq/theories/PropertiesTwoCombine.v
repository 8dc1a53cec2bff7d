(** C145: version 0 and version 2 agree on combining, and write the same pairs. *)
From Verif Require Import Base OMap Consensus ConsensusFacts Ext ExtInstance Raw RawFacts TapTree SpecCodec Serialize SerializeFacts MapCodec
  V2Global V2Input V2Output V2Psbt V2Roles SpecRoles V2RolesFacts PropertiesV2Roles PropertiesV2Combine
  V0Error V0Input V0Output V0Psbt SpecPsbt SpecTwoVersions SpecTwoCombine SampleV2.
Local Open Scope N_scope.

Local Notation cfg0 := (cfg_of false false).
(** Used by the examples only; the theorems bind their own. *)
#[local] Existing Instance toy | 100.
#[local] Instance ex_cfg : Cfg | 100 := cfg_of false false.

(** ** Combining *)

Section Combine.
Context `{X : Ext} {L : ExtLaws X} `{C : Cfg}.

Lemma xpubs_form l : forall m,
  match global_merge_xpubs l m, merge_xpubs0 l m with
  | Ok a, Ok b => a = b
  | Err (GCInconsistentKeySources x), Err (E0CombineInconsistentKeySources y) => x = y
  | Panic, Panic => True
  | _, _ => False
  end.
Proof.
  induction l as [|[x ks] l IH]; intros m; cbn [global_merge_xpubs merge_xpubs0]; [reflexivity|].
  unfold global_merge_xpub, merge_xpub0. destruct (m_get sk_xpub x m) as [ks2|]; cbn [bind]; [|apply IH]. cbv zeta.
  destruct (_ || _); cbn [bind]; [apply IH|]. destruct (_ <? _)%nat; cbn [bind]; [exact Logic.I|].
  destruct (path_eqb _ _); cbn [bind]; [apply IH|reflexivity].
Qed.

Lemma input_form a b : v0_txin a = v0_txin b ->
  exists c, input_combine a b = Ok c /\ v0_txin c = v0_txin a /\ v0_input c = input0_combine (v0_input a) (v0_input b).
Proof.
  intros H. unfold v0_txin in H. injection H as Ht Hv Hs. unfold input_combine.
  rewrite Ht, Hv, bytes_eqb_refl, N.eqb_refl. cbn [negb fail_if bind]. eexists. split; [reflexivity|]. split.
  - unfold v0_txin. cbn [in_previous_txid in_spent_output_index in_sequence]. rewrite Ht, Hv.
    destruct (in_sequence a); cbn [comb_opt]; [reflexivity|]. destruct (in_sequence b); cbn [comb_opt]; [rewrite <- Hs|]; reflexivity.
  - unfold v0_input, input0_combine, input_combine_utxo, input0_combine_utxo. cbn.
    destruct (in_witness_utxo a), (in_witness_utxo b); reflexivity.
Qed.
Lemma output_form a b : out_amount a = out_amount b -> out_script_pubkey a = out_script_pubkey b ->
  exists c, output_combine a b = Ok c /\ out_amount c = out_amount a /\ out_script_pubkey c = out_script_pubkey a
  /\ v0_output c = output0_combine (v0_output a) (v0_output b).
Proof.
  intros H H'. unfold output_combine. rewrite H, H', bytes_eqb_refl, N.eqb_refl. cbn [negb fail_if bind]. eexists.
  split; [reflexivity|]. cbn [out_amount out_script_pubkey]. auto.
Qed.
Lemma inputs_form l : forall l', map v0_txin l = map v0_txin l' ->
  exists r, combine_zip input_combine l l' = Ok r /\ map v0_txin r = map v0_txin l
  /\ map v0_input r = zip_combine input0_combine (map v0_input l) (map v0_input l').
Proof.
  induction l as [|a l IH]; intros [|b l'] H; try discriminate H; cbn [combine_zip]; [eauto|].
  assert (H1 : v0_txin a = v0_txin b) by exact (f_equal (hd (v0_txin a)) H).
  assert (H4 : map v0_txin l = map v0_txin l') by exact (f_equal (@tl _) H).
  destruct (input_form a b H1) as (c & Ec & Ec1 & Ec2).
  destruct (IH l' H4) as (r & Er & Er1 & Er2). rewrite Ec, Er. cbn [bind]. exists (c :: r). cbn [map zip_combine]. rewrite Ec1, Er1, Ec2, Er2. auto.
Qed.
Lemma outputs_form l : forall l', map (fun o => TxOut (out_amount o) (out_script_pubkey o)) l = map (fun o => TxOut (out_amount o) (out_script_pubkey o)) l' ->
  exists r, combine_zip output_combine l l' = Ok r
  /\ map (fun o => TxOut (out_amount o) (out_script_pubkey o)) r = map (fun o => TxOut (out_amount o) (out_script_pubkey o)) l
  /\ map v0_output r = zip_combine output0_combine (map v0_output l) (map v0_output l').
Proof.
  induction l as [|a l IH]; intros [|b l'] H; try discriminate H; cbn [combine_zip]; [eauto|].
  cbn [map] in H. injection H as H1 H2 H3. destruct (output_form a b H1 H2) as (c & Ec & Ec1 & Ec2 & Ec3).
  destruct (IH l' H3) as (r & Er & Er1 & Er2). rewrite Ec, Er. cbn [bind]. exists (c :: r). cbn [map zip_combine]. rewrite Ec1, Ec2, Er1, Ec3, Er2. auto.
Qed.

End Combine.

(** PSBTs for the same transaction are combined alike: to the same content, or both combiners refuse the
    same extended key, or both panic. *)
Theorem C145_combine : forall (X : Ext) (C : Cfg) p q lock,
  g_version (p_global p) = g_version (p_global q) -> same_unsigned p q ->
  combined_alike lock (psbt_combine p q) (psbt0_combine (v0_form lock p) (v0_form lock q)).
Proof.
  intros X C p q lock Hv H. unfold same_unsigned in H.
  pose proof (f_equal tx_version H) as H1. pose proof (f_equal tx_input H) as H2. pose proof (f_equal tx_output H) as H3.
  cbn [v0_form p0_unsigned_tx tx_version tx_input tx_output] in H1, H2, H3.
  unfold psbt0_combine. destruct (tx_dec _ _) as [_|N].
  2: { exfalso. apply N. cbn [v0_form p0_unsigned_tx]. rewrite H1, H2, H3. reflexivity. }
  unfold psbt_combine, global_combine. rewrite Hv, H1, !N.eqb_refl. cbn [negb fail_if bind].
  cbn [v0_form p0_xpub]. pose proof (xpubs_form (g_xpubs (p_global q)) (g_xpubs (p_global p))) as E.
  destruct (global_merge_xpubs _ _) as [xs|e|], (merge_xpubs0 _ _) as [xs0|e0|]; cbn [bind map_err combined_alike]; try contradiction;
    [|destruct e; contradiction|destruct e; try contradiction; destruct e0; try contradiction; exact E|destruct e; contradiction|exact Logic.I].
  subst xs0. destruct (inputs_form _ _ H2) as (is & Ei & Ei1 & Ei2). destruct (outputs_form _ _ H3) as (os & Eo & Eo1 & Eo2).
  rewrite Ei, Eo. cbn [bind map_err combined_alike]. unfold v0_form.
  cbn [p_global p_inputs p_outputs g_tx_version g_xpubs g_proprietaries g_unknowns p0_unsigned_tx p0_version p0_proprietary p0_unknown p0_inputs p0_outputs].
  rewrite H1, Ei1, Ei2, Eo1, Eo2. reflexivity.
Qed.
Print Assumptions C145_combine.

Example C145_combine_example :
  g_version (p_global cx_left) = g_version (p_global cx_right) /\ same_unsigned cx_left cx_right
  /\ is_ok (psbt_combine cx_left cx_right) = true
  /\ psbt_combine (cx [xpub_pair x05 [1; 2]] [] []) (cx [xpub_pair x05 [3]] [] []) = Panic
  /\ same_unsigned (cx [xpub_pair x05 [1; 2]] [] []) (cx [xpub_pair x05 [3]] [] []).
Proof. vm_compute. auto. Qed.

(** PSBTs for different transactions are always refused by version 0, but not by version 2. *)
Theorem C145_combine_different : forall (X : Ext) p q lock lock',
  p0_unsigned_tx (v0_form lock p) <> p0_unsigned_tx (v0_form lock' q) ->
  psbt0_combine (v0_form lock p) (v0_form lock' q) = Err (E0UnexpectedUnsignedTx (p0_unsigned_tx (v0_form lock p)) (p0_unsigned_tx (v0_form lock' q))).
Proof. intros X p q lock lock' H. unfold psbt0_combine. destruct (tx_dec _ _); [contradiction|reflexivity]. Qed.
Print Assumptions C145_combine_different.
Theorem C145_combine_refuted : exists p q lock lock' r, @wf_psbt toy cfg0 p /\ @wf_psbt toy cfg0 q
  /\ bip370_lock_time p (Some lock) /\ bip370_lock_time q (Some lock')
  /\ p0_unsigned_tx (v0_form lock p) <> p0_unsigned_tx (v0_form lock' q)
  /\ psbt_combine p q = Ok r.
Proof.
  exists (cx [pr x03 [] (le4 7)] [] []), (cx [pr x03 [] (le4 8)] [] []), 7, 8, (comb (cx [pr x03 [] (le4 7)] [] []) (cx [pr x03 [] (le4 8)] [] [])).
  split; [apply cx_wf; vm_compute; reflexivity|]. split; [apply cx_wf; vm_compute; reflexivity|].
  split; [apply C18_lock_time; vm_compute; reflexivity|]. split; [apply C18_lock_time; vm_compute; reflexivity|].
  split; [|vm_compute; reflexivity]. intros H. apply (f_equal tx_lock_time) in H. discriminate H.
Qed.
Print Assumptions C145_combine_refuted.

(** ** Pairs *)

Lemma opt_type {A} t (f : A -> bytes) o pr : In pr (opt_pairs t f o) -> k_type (p_key pr) = t.
Proof. destruct o; cbn [opt_pairs]; [intros [<-|[]]; reflexivity|intros []]. Qed.
Lemma map_type {K V} t (f : K -> bytes) (g : V -> bytes) l pr : In pr (map_pairs t f g l) -> k_type (p_key pr) = t.
Proof. unfold map_pairs. intros H. apply in_map_iff in H as (e & <- & _). reflexivity. Qed.

(** What version 0 writes for its form of a PSBT, version 2 writes for the PSBT itself, but for the
    transaction; what version 2 writes besides is of the key types that only version 2 has. *)
Theorem C145_pairs_input : forall (X : Ext) (C : Cfg) i pr,
  (In pr (input0_pairs (v0_input i)) -> In pr (input_pairs i)) /\
  (In pr (input_pairs i) -> In pr (input0_pairs (v0_input i)) \/ v2_only_input pr).
Proof.
  intros X C i pr. unfold input0_pairs, input_pairs, v2_only_input. cbn [v0_input i0_non_witness_utxo i0_witness_utxo i0_partial_sigs i0_sighash_type
    i0_redeem_script i0_witness_script i0_bip32_derivation i0_final_script_sig i0_final_script_witness i0_ripemd160_preimages i0_sha256_preimages
    i0_hash160_preimages i0_hash256_preimages i0_tap_key_sig i0_tap_script_sigs i0_tap_scripts i0_tap_key_origins i0_tap_internal_key i0_tap_merkle_root
    i0_proprietary i0_unknown].
  rewrite !in_app_iff. split; [tauto|]. intros H.
  repeat (match type of H with _ \/ _ => idtac end; destruct H as [H|H]; [first [left; tauto|right]|]); [..|left; tauto].
  all: try (apply opt_type in H; rewrite H; cbn [In]; tauto).
  - destruct H as [<-|[]]. cbn. tauto.
  - destruct H as [<-|[]]. cbn. tauto.
  - destruct feat_sp; [|destruct H]. apply map_type in H. rewrite H. cbn [In]. tauto.
  - destruct feat_sp; [|destruct H]. apply map_type in H. rewrite H. cbn [In]. tauto.
Qed.
Print Assumptions C145_pairs_input.
Theorem C145_pairs_output : forall (X : Ext) (C : Cfg) o pr,
  (In pr (output0_pairs (v0_output o)) -> In pr (output_pairs o)) /\
  (In pr (output_pairs o) -> In pr (output0_pairs (v0_output o)) \/ v2_only_output pr).
Proof.
  intros X C o pr. unfold output0_pairs, output_pairs, v2_only_output. cbn [v0_output o0_redeem_script o0_witness_script o0_bip32_derivation
    o0_tap_internal_key o0_tap_tree o0_tap_key_origins o0_proprietary o0_unknown].
  rewrite !in_app_iff. split; [tauto|]. intros H.
  repeat (match type of H with _ \/ _ => idtac end; destruct H as [H|H]; [first [left; tauto|right]|]); [..|left; tauto].
  - destruct H as [<-|[]]. cbn. tauto.
  - destruct H as [<-|[]]. cbn. tauto.
  - destruct feat_sp; [|destruct H]. apply opt_type in H. rewrite H. cbn [In]. tauto.
  - destruct feat_sp; [|destruct H]. apply opt_type in H. rewrite H. cbn [In]. tauto.
Qed.
Print Assumptions C145_pairs_output.
Theorem C145_pairs_global : forall (X : Ext) (C : Cfg) p lock pr,
  (In pr (global0_pairs (v0_form lock p)) -> pr = Pair (Key x00 []) (enc_tx_nowit (p0_unsigned_tx (v0_form lock p))) \/ In pr (global_pairs (p_global p))) /\
  (In pr (global_pairs (p_global p)) -> In pr (global0_pairs (v0_form lock p)) \/ v2_only_global pr).
Proof.
  intros X C p lock pr. unfold global0_pairs, global_pairs, v2_only_global. cbn [v0_form p0_xpub p0_version p0_proprietary p0_unknown].
  change (0 <? 0) with false. cbv iota. rewrite !in_app_iff. split.
  - intros [[H|[]]|H]; [left; symmetry; exact H|right; cbn [In] in H; tauto].
  - intros H. repeat (match type of H with _ \/ _ => idtac end; destruct H as [H|H]; [first [left; tauto|right]|]); [..|left; tauto].
    all: try (destruct H as [<-|[]]; cbn; tauto).
    + apply opt_type in H. rewrite H. cbn [In]. tauto.
    + destruct feat_sp; [|destruct H]. apply map_type in H. rewrite H. cbn [In]. tauto.
    + destruct feat_sp; [|destruct H]. apply map_type in H. rewrite H. cbn [In]. tauto.
Qed.
Print Assumptions C145_pairs_global.
Example C145_pairs_example :
  length (global0_pairs (v0_form 0 cx_left)) = 3%nat /\ length (global_pairs (p_global cx_left)) = 7%nat
  /\ length (input0_pairs (v0_input (first_input cx_left))) = 3%nat /\ length (input_pairs (first_input cx_left)) = 5%nat
  /\ length (output0_pairs (v0_output (first_output cx_right))) = 1%nat /\ length (output_pairs (first_output cx_right)) = 3%nat.
Proof. vm_compute. repeat split. Qed.
