(** C114, C115: combining more than two PSBTs (src/v2/mod.rs:79, 675-687,
    src/v0/bitcoin/mod.rs:224-287). *)
From Coq Require Import Permutation.
From Verif Require Import Base OMap Consensus ConsensusFacts Ext ExtInstance Raw RawFacts TapTree Serialize SerializeFacts MapCodec
  V2Global V2Input V2Output V2Psbt SpecCodec SpecPsbt V2CodecFacts V2WireFacts V2Roles SpecRoles SpecCombine V2CombineFacts SampleV2 PropertiesV2Combine
  V0Error V0Input V0Output V0Psbt SpecPsbt0 V0PsbtFacts V0WireFacts SpecCombine0 V0CombineFacts SampleV0 PropertiesV0Combine
  SpecRegroup RegroupFacts ManyFacts.
Local Open Scope N_scope.

Local Notation cfg0 := (cfg_of false false).
(** Used by the examples only; the theorems bind their own. *)
#[local] Existing Instance toy | 100.
#[local] Instance ex_cfg : Cfg | 100 := cfg_of false false.

(** ** C114: associativity *)

(** Refuted as stated: all three PSBTs are for the same transaction, both groupings succeed, and
    the non-witness utxo of the third is in one result and not in the other. *)
Theorem C114_refuted : exists a b c d e,
  @wf_psbt toy cfg0 a /\ @wf_psbt toy cfg0 b /\ @wf_psbt toy cfg0 c /\ psbt_id a = psbt_id b /\ psbt_id b = psbt_id c /\
  left_first psbt_combine a b c = Ok d /\ right_first psbt_combine a b c = Ok e /\
  map (fun i => isnone (in_non_witness_utxo i)) (p_inputs d) = [false] /\
  map (fun i => isnone (in_non_witness_utxo i)) (p_inputs e) = [true].
Proof.
  exists (cx [] [] []), (cx [] [pr x01 [] utxo_bytes] []), (cx [] [pr x00 [] prev_tx] []),
    (comb (comb (cx [] [] []) (cx [] [pr x01 [] utxo_bytes] [])) (cx [] [pr x00 [] prev_tx] [])),
    (comb (cx [] [] []) (comb (cx [] [pr x01 [] utxo_bytes] []) (cx [] [pr x00 [] prev_tx] []))).
  split; [apply cx_wf; vm_compute; reflexivity|]. split; [apply cx_wf; vm_compute; reflexivity|]. split; [apply cx_wf; vm_compute; reflexivity|].
  split; [vm_compute; reflexivity|]. split; [vm_compute; reflexivity|]. split; [vm_compute; reflexivity|]. split; [vm_compute; reflexivity|].
  split; vm_compute; reflexivity.
Qed.
Print Assumptions C114_refuted.

(** One grouping succeeds if and only if the other does. *)
Theorem C114_both_succeed : forall (X : Ext) (C : Cfg) a b c, sorted_psbt a -> sorted_psbt b -> sorted_psbt c ->
  same_counts a b -> same_counts b c ->
  (exists d, left_first psbt_combine a b c = Ok d) <-> (exists e, right_first psbt_combine a b c = Ok e).
Proof.
  intros X C a b c Sa Sb Sc L1 L2. split.
  - intros [d H]. destruct (regroup_right_ok a b c Sa Sb Sc L1 L2 d H) as (e & He & _). eauto.
  - intros [e H]. exact (regroup_left_ok a b c Sa Sb Sc L1 L2 e H).
Qed.
Print Assumptions C114_both_succeed.

(** The results are the same but for non-witness utxos ... *)
Theorem C114_grouping_partial : forall (X : Ext) (C : Cfg) a b c d e, sorted_psbt a -> sorted_psbt b -> sorted_psbt c ->
  same_counts a b -> same_counts b c ->
  left_first psbt_combine a b c = Ok d -> right_first psbt_combine a b c = Ok e -> without_utxos d = without_utxos e.
Proof.
  intros X C a b c d e Sa Sb Sc L1 L2 Hd He. destruct (regroup_right_ok a b c Sa Sb Sc L1 L2 d Hd) as (e' & He' & Q).
  assert (e' = e) by congruence. now subst.
Qed.
Print Assumptions C114_grouping_partial.

(** ... which are the same too exactly when the utxos of all inputs are regroupable. *)
Theorem C114_equal_iff : forall (X : Ext) (C : Cfg) a b c d e, sorted_psbt a -> sorted_psbt b -> sorted_psbt c ->
  same_counts a b -> same_counts b c ->
  left_first psbt_combine a b c = Ok d -> right_first psbt_combine a b c = Ok e ->
  (d = e <-> nth3 regroupable_inputs (p_inputs a) (p_inputs b) (p_inputs c)).
Proof. intros X C a b c d e Sa Sb Sc L1 L2. exact (regroup_eq a b c Sa Sb Sc L1 L2 d e). Qed.
Print Assumptions C114_equal_iff.

(** In particular when no PSBT has a non-witness utxo or all of them have the witness utxos. *)
Theorem C114_no_utxo : forall (X : Ext) (C : Cfg) a b c d e, sorted_psbt a -> sorted_psbt b -> sorted_psbt c ->
  same_counts a b -> same_counts b c ->
  left_first psbt_combine a b c = Ok d -> right_first psbt_combine a b c = Ok e ->
  Forall (fun p => Forall (fun i => in_non_witness_utxo i = None) (p_inputs p)) [a; b; c] \/
  Forall (fun p => Forall (fun i => in_witness_utxo i <> None) (p_inputs p)) [a; b; c] ->
  d = e.
Proof.
  intros X C a b c d e Sa Sb Sc L1 L2 Hd He H. apply (regroup_eq a b c Sa Sb Sc L1 L2 d e Hd He).
  intros n i j k Hi Hj Hk. apply nth_error_In in Hi, Hj, Hk. unfold regroupable_inputs, regroupable.
  destruct H as [H|H]; rewrite Forall_forall in H;
    pose proof (H a (or_introl eq_refl)) as Ha; pose proof (H b (or_intror (or_introl eq_refl))) as Hb;
    pose proof (H c (or_intror (or_intror (or_introl eq_refl)))) as Hc; rewrite Forall_forall in Ha, Hb, Hc.
  - rewrite (Ha _ Hi), (Hb _ Hj), (Hc _ Hk). split; auto.
  - split; [intros Q; now destruct (Ha _ Hi)|intros _ Q; now destruct (Hb _ Hj)].
Qed.
Print Assumptions C114_no_utxo.

Definition cx_third : psbt := cx [pr xf0 [x02] [x01]; xpub_pair x05 [1; 2]] [pr x01 [] utxo_bytes; pr x06 pk_a (le4 9); pr x03 [] (le4 1)] [pr x00 [] [x51]; pr x01 [] [x52]].
Lemma cx_third_wf : @wf_psbt toy cfg0 cx_third.
Proof. apply cx_wf. vm_compute. reflexivity. Qed.
Example C114_example : sorted_psbt cx_left /\ sorted_psbt cx_right /\ sorted_psbt cx_third
  /\ same_counts cx_left cx_right /\ same_counts cx_right cx_third
  /\ left_first psbt_combine cx_left cx_right cx_third = Ok (comb (comb cx_left cx_right) cx_third)
  /\ right_first psbt_combine cx_left cx_right cx_third = Ok (comb cx_left (comb cx_right cx_third))
  /\ Forall (fun p => Forall (fun i => in_non_witness_utxo i = None) (p_inputs p)) [cx_left; cx_right; cx_third].
Proof.
  split; [apply wf_sorted, cx_left_wf|]. split; [apply wf_sorted, cx_right_wf|]. split; [apply wf_sorted, cx_third_wf|].
  split; [split; vm_compute; reflexivity|]. split; [split; vm_compute; reflexivity|].
  split; [vm_compute; reflexivity|]. split; [vm_compute; reflexivity|].
  assert (H : forallb (fun p => forallb (fun i => isnone (in_non_witness_utxo i)) (p_inputs p)) [cx_left; cx_right; cx_third] = true)
    by (vm_compute; reflexivity).
  rewrite forallb_forall in H. apply Forall_forall. intros p Hp. specialize (H p Hp). rewrite forallb_forall in H.
  apply Forall_forall. intros i Hi. specialize (H i Hi). destruct (in_non_witness_utxo i); [discriminate H|reflexivity].
Qed.

Theorem C114_v0_refuted : exists a b c d e,
  @wf_psbt0 toy a /\ @wf_psbt0 toy b /\ @wf_psbt0 toy c /\ p0_unsigned_tx a = p0_unsigned_tx b /\ p0_unsigned_tx b = p0_unsigned_tx c /\
  left_first psbt0_combine a b c = Ok d /\ right_first psbt0_combine a b c = Ok e /\
  map (fun i => isnone (i0_non_witness_utxo i)) (p0_inputs d) = [false] /\
  map (fun i => isnone (i0_non_witness_utxo i)) (p0_inputs e) = [true].
Proof.
  exists (cx0 [] [] []), (cx0 [] [pr x01 [] utxo_bytes] []), (cx0 [] [pr x00 [] prev_tx] []),
    (comb0 (comb0 (cx0 [] [] []) (cx0 [] [pr x01 [] utxo_bytes] [])) (cx0 [] [pr x00 [] prev_tx] [])),
    (comb0 (cx0 [] [] []) (comb0 (cx0 [] [pr x01 [] utxo_bytes] []) (cx0 [] [pr x00 [] prev_tx] []))).
  split; [apply cx0_wf; vm_compute; reflexivity|]. split; [apply cx0_wf; vm_compute; reflexivity|]. split; [apply cx0_wf; vm_compute; reflexivity|].
  split; [vm_compute; reflexivity|]. split; [vm_compute; reflexivity|]. split; [vm_compute; reflexivity|]. split; [vm_compute; reflexivity|].
  split; vm_compute; reflexivity.
Qed.
Print Assumptions C114_v0_refuted.

Theorem C114_v0_both_succeed : forall (X : Ext) a b c, sorted_psbt0 a -> sorted_psbt0 b -> sorted_psbt0 c ->
  same_counts0 a b -> same_counts0 b c ->
  (exists d, left_first psbt0_combine a b c = Ok d) <-> (exists e, right_first psbt0_combine a b c = Ok e).
Proof.
  intros X a b c Sa Sb Sc L1 L2. split.
  - intros [d H]. destruct (regroup0_right_ok a b c Sa Sb Sc L1 L2 d H) as (e & He & _). eauto.
  - intros [e H]. exact (regroup0_left_ok a b c Sa Sb Sc e H).
Qed.
Print Assumptions C114_v0_both_succeed.

Theorem C114_v0_grouping_partial : forall (X : Ext) a b c d e, sorted_psbt0 a -> sorted_psbt0 b -> sorted_psbt0 c ->
  same_counts0 a b -> same_counts0 b c ->
  left_first psbt0_combine a b c = Ok d -> right_first psbt0_combine a b c = Ok e -> without_utxos0 d = without_utxos0 e.
Proof.
  intros X a b c d e Sa Sb Sc L1 L2 Hd He. destruct (regroup0_right_ok a b c Sa Sb Sc L1 L2 d Hd) as (e' & He' & Q).
  assert (e' = e) by congruence. now subst.
Qed.
Print Assumptions C114_v0_grouping_partial.

Theorem C114_v0_equal_iff : forall (X : Ext) a b c d e, sorted_psbt0 a -> sorted_psbt0 b -> sorted_psbt0 c ->
  same_counts0 a b -> same_counts0 b c ->
  left_first psbt0_combine a b c = Ok d -> right_first psbt0_combine a b c = Ok e ->
  (d = e <-> nth3 regroupable_inputs0 (p0_inputs a) (p0_inputs b) (p0_inputs c)).
Proof. intros X a b c d e Sa Sb Sc L1 L2. exact (regroup0_eq a b c Sa Sb Sc L1 L2 d e). Qed.
Print Assumptions C114_v0_equal_iff.

Definition cx0_third : psbt0 := cx0 [pr xf0 [x02] [x01]; xpub_pair x05 [1; 2]] [pr x01 [] utxo_bytes; pr x06 pk_a (le4 9); pr x03 [] (le4 1)] [pr x00 [] [x51]; pr x01 [] [x52]].
Lemma cx0_third_wf : @wf_psbt0 toy cx0_third.
Proof. apply cx0_wf. vm_compute. reflexivity. Qed.
Example C114_v0_example : sorted_psbt0 cx0_left /\ sorted_psbt0 cx0_right /\ sorted_psbt0 cx0_third
  /\ same_counts0 cx0_left cx0_right /\ same_counts0 cx0_right cx0_third
  /\ left_first psbt0_combine cx0_left cx0_right cx0_third = Ok (comb0 (comb0 cx0_left cx0_right) cx0_third)
  /\ right_first psbt0_combine cx0_left cx0_right cx0_third = Ok (comb0 cx0_left (comb0 cx0_right cx0_third)).
Proof.
  split; [apply wf_sorted0, cx0_left_wf|]. split; [apply wf_sorted0, cx0_right_wf|]. split; [apply wf_sorted0, cx0_third_wf|].
  split; [split; vm_compute; reflexivity|]. split; [split; vm_compute; reflexivity|].
  split; [vm_compute; reflexivity|]. vm_compute; reflexivity.
Qed.

(** ** C115: many PSBTs *)

(** Pairwise compatible PSBTs can be combined in any order and any grouping, with equal results ... *)
Theorem C115_any_plan : forall (X : Ext) (L : ExtLaws X) (C : Cfg) s t,
  Forall wf_psbt (members s) -> ForallOrdPairs compatible (members s) -> Permutation (members s) (members t) ->
  exists c d, carry_out psbt_combine s = Ok c /\ carry_out psbt_combine t = Ok d /\ psbt_eq c d.
Proof. intros X L C s t H1 H2 P. exact (plans_agree s t P H1 H2). Qed.
Print Assumptions C115_any_plan.

(** ... and the result has exactly the key-value pairs of the PSBTs, each in its map. *)
Theorem C115_union : forall (X : Ext) (L : ExtLaws X) (C : Cfg) s c,
  Forall wf_psbt (members s) -> ForallOrdPairs compatible (members s) -> carry_out psbt_combine s = Ok c ->
  wf_psbt c /\ forall l e, entry c l e <-> Exists (fun p => entry p l e) (members s).
Proof. intros X L C s c H1 H2 H. exact (plan_union s c H1 H2 H). Qed.
Print Assumptions C115_union.

Lemma compatibleb_ok p q :
  no_conflictb (global_pairs (p_global p)) (global_pairs (p_global q)) &&
  isnone (g_fallback_lock_time (p_global p)) && isnone (g_fallback_lock_time (p_global q)) = true ->
  forall2b (fun i j => no_conflictb (input_pairs i) (input_pairs j)
      && negb (isnone (in_sighash_type i)) && negb (isnone (in_sighash_type j)) && isnone (in_non_witness_utxo i) && isnone (in_non_witness_utxo j))
    (p_inputs p) (p_inputs q) = true ->
  forall2b (fun i j => no_conflictb (output_pairs i) (output_pairs j)) (p_outputs p) (p_outputs q) = true -> compatible p q.
Proof.
  intros H1 H2 H3. split; [|split].
  - apply andb_true_iff in H1 as [H1 B2]. apply andb_true_iff in H1 as [H1 B1]. split; [now apply no_conflictb_ok|].
    destruct (g_fallback_lock_time (p_global p)), (g_fallback_lock_time (p_global q)); try discriminate. tauto.
  - refine (forall2b_ok _ _ _ _ _ H2). intros i j H. apply andb_true_iff in H as [H B4]. apply andb_true_iff in H as [H B3].
    apply andb_true_iff in H as [H B2]. apply andb_true_iff in H as [H B1].
    split; [now apply no_conflictb_ok|]. split.
    + destruct (in_sighash_type i), (in_sighash_type j); try discriminate. split; intros Q; discriminate Q.
    + intros _. destruct (in_non_witness_utxo i), (in_non_witness_utxo j); try discriminate. auto.
  - refine (forall2b_ok _ _ _ _ _ H3). intros i j. apply no_conflictb_ok.
Qed.
Example C115_example : let s := Two (Two (One cx_left) (One cx_right)) (One cx_third) in let t := Two (One cx_third) (Two (One cx_right) (One cx_left)) in
  Forall wf_psbt (members s) /\ ForallOrdPairs compatible (members s) /\ Permutation (members s) (members t)
  /\ is_ok (carry_out psbt_combine s) = true.
Proof.
  intros s t. split; [apply Forall_cons; [exact cx_left_wf|]; apply Forall_cons; [exact cx_right_wf|]; apply Forall_cons; [exact cx_third_wf|]; apply Forall_nil|]. split; [|split].
  - apply FOP_cons; [apply Forall_cons; [|apply Forall_cons; [|apply Forall_nil]]|
      apply FOP_cons; [apply Forall_cons; [|apply Forall_nil]|apply FOP_cons; [apply Forall_nil|apply FOP_nil]]];
      (apply compatibleb_ok; vm_compute; reflexivity).
  - exact (Permutation_rev [cx_left; cx_right; cx_third]).
  - vm_compute. reflexivity.
Qed.

Theorem C115_v0_any_plan : forall (X : Ext) (L : ExtLaws X) s t,
  Forall wf_psbt0 (members s) -> ForallOrdPairs compatible0 (members s) -> Permutation (members s) (members t) ->
  exists c d, carry_out psbt0_combine s = Ok c /\ carry_out psbt0_combine t = Ok d /\ psbt0_eq c d.
Proof. intros X L s t H1 H2 P. exact (plans_agree0 s t P H1 H2). Qed.
Print Assumptions C115_v0_any_plan.

Theorem C115_v0_union : forall (X : Ext) (L : ExtLaws X) s c,
  Forall wf_psbt0 (members s) -> ForallOrdPairs compatible0 (members s) -> carry_out psbt0_combine s = Ok c ->
  forall l e, entry0 c l e <-> Exists (fun p => entry0 p l e) (members s).
Proof. intros X L s c H1 H2 H. exact (plan_union0 s c H1 H2 H). Qed.
Print Assumptions C115_v0_union.

Lemma compatible0b_ok p q :
  no_conflictb (global0_pairs p) (global0_pairs q) = true ->
  forall2b (fun i j => no_conflictb (input0_pairs i) (input0_pairs j)
      && negb (isnone (i0_sighash_type i)) && negb (isnone (i0_sighash_type j)) && isnone (i0_non_witness_utxo i) && isnone (i0_non_witness_utxo j))
    (p0_inputs p) (p0_inputs q) = true ->
  forall2b (fun i j => no_conflictb (output0_pairs i) (output0_pairs j)) (p0_outputs p) (p0_outputs q) = true -> compatible0 p q.
Proof.
  intros H1 H2 H3. split; [|split].
  - now apply no_conflictb_ok.
  - refine (forall2b_ok _ _ _ _ _ H2). intros i j H. apply andb_true_iff in H as [H B4]. apply andb_true_iff in H as [H B3].
    apply andb_true_iff in H as [H B2]. apply andb_true_iff in H as [H B1].
    split; [now apply no_conflictb_ok|]. split.
    + destruct (i0_sighash_type i), (i0_sighash_type j); try discriminate. split; intros Q; discriminate Q.
    + intros _. destruct (i0_non_witness_utxo i), (i0_non_witness_utxo j); try discriminate. auto.
  - refine (forall2b_ok _ _ _ _ _ H3). intros i j. apply no_conflictb_ok.
Qed.
Example C115_v0_example : let s := Two (Two (One cx0_left) (One cx0_right)) (One cx0_third) in let t := Two (One cx0_third) (Two (One cx0_right) (One cx0_left)) in
  Forall wf_psbt0 (members s) /\ ForallOrdPairs compatible0 (members s) /\ Permutation (members s) (members t)
  /\ is_ok (carry_out psbt0_combine s) = true.
Proof.
  intros s t. split; [apply Forall_cons; [exact cx0_left_wf|]; apply Forall_cons; [exact cx0_right_wf|]; apply Forall_cons; [exact cx0_third_wf|]; apply Forall_nil|]. split; [|split].
  - apply FOP_cons; [apply Forall_cons; [|apply Forall_cons; [|apply Forall_nil]]|
      apply FOP_cons; [apply Forall_cons; [|apply Forall_nil]|apply FOP_cons; [apply Forall_nil|apply FOP_nil]]];
      (apply compatible0b_ok; vm_compute; reflexivity).
  - exact (Permutation_rev [cx0_left; cx0_right; cx0_third]).
  - vm_compute. reflexivity.
Qed.
