(** C16-C21, C23-C26, C29, C44 and the flag part of C22: roles, lock time, id, fee,
    extraction. *)
From Verif Require Import Base OMap Consensus ConsensusFacts Ext ExtInstance Raw TapTree Serialize SerializeFacts MapCodec
  V2Global V2Input V2Output V2Psbt SpecCodec SpecPsbt V2Roles SpecRoles V2RolesFacts SampleV2.
Local Open Scope N_scope.

Local Notation cfg0 := (cfg_of false false).
(** Used by the examples only; the theorems bind their own. *)
#[local] Existing Instance toy | 100.
#[local] Instance ex_cfg : Cfg | 100 := cfg_of false false.

(** Values for the examples. *)
Definition ex_in_a : input := input_new (txid_a, 1).
Definition ex_in_b : input := set_in_min_height (Some 77) (input_new (txid_b, 0)).
Definition ex_out : output := output_new (TxOut 4000 p2wpkh_a).
Definition fund (v : N) (i : input) : input := set_in_witness_utxo (Some (TxOut v p2wpkh_a)) i.
Definition final (i : input) : input :=
  set_in_final_script_witness (Some [pk_a]) (set_in_final_script_sig (Some []) i).
Definition ex_psbt (is : list input) (os : list output) : psbt :=
  Psbt (set_g_output_count (blen os) (set_g_input_count (blen is) (global_new))) is os.

(** ** C16: the counts match what was constructed *)

Theorem C16_counts : forall (X : Ext) (C : Cfg) s p is os,
  built s p is os -> blen is < 2 ^ 64 -> blen os < 2 ^ 64 ->
  p_inputs p = is /\ p_outputs p = os
  /\ g_input_count (p_global p) = N.of_nat (length is) /\ g_output_count (p_global p) = N.of_nat (length os).
Proof. intros X C s p is os H Hi Ho. exact (built_counts s p is os H Hi Ho). Qed.
Print Assumptions C16_counts.

(** Adding an input or an output never fails (a [Vec] has fewer than 2^63 elements). *)
Theorem C16_adding_succeeds : forall (X : Ext) (C : Cfg) k p is os i o,
  built (SConstructor k) p is os -> blen is + 1 < 2 ^ 64 -> blen os + 1 < 2 ^ 64 ->
  (exists q, constructor_input i p = Ok (E := Empty_set) q) /\ (exists q, constructor_output o p = Ok (E := Empty_set) q).
Proof.
  intros X C k p is os i o H Hi Ho.
  destruct (built_counts _ _ _ _ H) as (_ & _ & H1 & H2); [unfold U64; lia|unfold U64; lia|].
  unfold constructor_input, constructor_output, incr. rewrite H1, H2.
  replace (blen is + 1 <? U64) with true by (unfold U64; lia). replace (blen os + 1 <? U64) with true by (unfold U64; lia).
  rewrite !orb_true_r. cbn [panic_unless bind]. split; eexists; reflexivity.
Qed.
Print Assumptions C16_adding_succeeds.

Definition ok_or {E A} (r : res E A) (d : A) : A := match r with Ok x => x | _ => d end.
Definition ex_step1 : psbt := ok_or (constructor_input (E := Empty_set) ex_in_a (constructor_default KModifiable)) empty_psbt.
Definition ex_step2 : psbt := ok_or (constructor_output (E := Empty_set) ex_out ex_step1) empty_psbt.
Definition ex_step3 : psbt := ok_or (constructor_input (E := Empty_set) ex_in_b ex_step2) empty_psbt.
Definition ex_step4 : psbt := ok_or (constructor_updater ex_step3) empty_psbt.

Example C16_example : built SUpdater ex_step4 [ex_in_a; ex_in_b] [ex_out] /\ p_inputs ex_step4 = [ex_in_a; ex_in_b]
  /\ g_input_count (p_global ex_step4) = 2 /\ g_output_count (p_global ex_step4) = 1.
Proof.
  split; [|vm_compute; auto].
  apply (BUpdater KModifiable ex_step3); [|vm_compute; reflexivity].
  apply (BInput KModifiable ex_in_b ex_step2 ex_step3 [ex_in_a]); [now left| |vm_compute; reflexivity].
  apply (BOutput KModifiable ex_out ex_step1 ex_step2 [ex_in_a] []); [now left| |vm_compute; reflexivity].
  apply (BInput KModifiable ex_in_a (constructor_default KModifiable) ex_step1 []); [now left| |vm_compute; reflexivity].
  apply BConstructor, BNew.
Qed.

(** ** C17: the modifiable flags are respected *)

Theorem C17_new_needs_flags : forall k p q, constructor_new k p = Ok q <->
  q = p /\ (takes_inputs k -> N.testbit (g_tx_modifiable_flags (p_global p)) 0 = true)
        /\ (takes_outputs k -> N.testbit (g_tx_modifiable_flags (p_global p)) 1 = true).
Proof. exact constructor_new_iff. Qed.
Print Assumptions C17_new_needs_flags.

(** What the functions of the creator do to the flags; nothing else of the PSBT changes. *)
Definition same_but_flags (p q : psbt) : Prop :=
  q = Psbt (set_g_tx_modifiable_flags (g_tx_modifiable_flags (p_global q)) (p_global p)) (p_inputs p) (p_outputs p).
Definition flag (p : psbt) (n : N) : bool := N.testbit (g_tx_modifiable_flags (p_global p)) n.
Theorem C17_creator : forall k p, let q := creator_constructor k p in
  same_but_flags p q
  /\ (flag q 0 = true <-> takes_inputs k) /\ (flag q 1 = true <-> takes_outputs k)
  /\ (forall n, 2 <= n -> flag q n = flag p n).
Proof.
  intros k p q. unfold q, flag. clear q. split; [destruct k; reflexivity|].
  assert (H : forall n, N.testbit (g_tx_modifiable_flags (p_global (creator_constructor k p))) n =
    match k with
    | KModifiable => N.testbit (g_tx_modifiable_flags (p_global p)) n || (n =? 0) || (n =? 1)
    | KInputsOnly => (N.testbit (g_tx_modifiable_flags (p_global p)) n || (n =? 0)) && negb (n =? 1)
    | KOutputsOnly => (N.testbit (g_tx_modifiable_flags (p_global p)) n && negb (n =? 0)) || (n =? 1)
    end).
  { intros n. destruct k; cbn [creator_constructor on_global set_p_global p_global];
      rewrite ?set_outputs_bits, ?clear_outputs_bits, ?set_inputs_bits, ?clear_inputs_bits; reflexivity. }
  split; [|split; [|intros n Hn]]; rewrite H; destruct k; cbn [N.eqb Pos.eqb negb]; unfold takes_inputs, takes_outputs;
    rewrite ?orb_true_r, ?orb_false_r, ?andb_false_r, ?andb_true_r.
  all: try (split; [intros Hb; first [now left|now right|discriminate Hb]|intros [Hb|Hb]; first [reflexivity|discriminate Hb]]).
  all: destruct (N.eqb_spec n 0); [lia|]; destruct (N.eqb_spec n 1); [lia|]; cbn [negb]; now rewrite ?orb_false_r, ?andb_true_r, ?orb_false_r.
Qed.
Print Assumptions C17_creator.
Theorem C17_setters : forall p b,
  same_but_flags p (creator_inputs_modifiable p) /\ flag (creator_inputs_modifiable p) b = flag p b || (b =? 0)
  /\ same_but_flags p (creator_outputs_modifiable p) /\ flag (creator_outputs_modifiable p) b = flag p b || (b =? 1)
  /\ same_but_flags p (creator_sighash_single p) /\ flag (creator_sighash_single p) b = flag p b || (b =? 2).
Proof.
  intros p b. unfold flag. cbn [creator_inputs_modifiable creator_outputs_modifiable creator_sighash_single on_global set_p_global p_global].
  rewrite set_inputs_bits, set_outputs_bits, set_single_bits. repeat split.
Qed.
Print Assumptions C17_setters.

Theorem C17_updater_clears_flags : forall p q, constructor_updater p = Ok q ->
  N.testbit (g_tx_modifiable_flags (p_global q)) 0 = false
  /\ N.testbit (g_tx_modifiable_flags (p_global q)) 1 = false
  /\ (forall n, 2 <= n -> N.testbit (g_tx_modifiable_flags (p_global q)) n = N.testbit (g_tx_modifiable_flags (p_global p)) n)
  /\ p_inputs q = p_inputs p /\ p_outputs q = p_outputs p.
Proof.
  intros p q H. unfold constructor_updater, constructor_psbt in H. binds H. inj H.
  cbn [constructor_no_more_outputs constructor_no_more_inputs on_global set_p_global p_global p_inputs p_outputs].
  rewrite !clear_outputs_bits, !clear_inputs_bits. cbn [N.eqb Pos.eqb negb]. rewrite !andb_false_r, ?andb_true_r.
  repeat split; auto. intros n Hn. rewrite clear_outputs_bits, clear_inputs_bits.
  destruct (N.eqb_spec n 0); [lia|]. destruct (N.eqb_spec n 1); [lia|]. now rewrite !andb_true_r.
Qed.
Print Assumptions C17_updater_clears_flags.

(** After [no_more_inputs] the constructor still accepts inputs. *)
Theorem C17_no_more_refuted : forall (X : Ext) (C : Cfg), exists p q is os i,
  built (SConstructor KModifiable) (constructor_no_more_inputs p) is os
  /\ N.testbit (g_tx_modifiable_flags (p_global (constructor_no_more_inputs p))) 0 = false
  /\ constructor_input i (constructor_no_more_inputs p) = Ok (E := Empty_set) q
  /\ length (p_inputs q) = S (length (p_inputs (constructor_no_more_inputs p))).
Proof.
  intros X C. exists (constructor_default KModifiable). eexists. exists [], [], ex_in_a.
  split; [apply BNoMoreInputs, BConstructor, BNew|]. split; [reflexivity|].
  split; [|].
  - unfold constructor_input, incr.
    replace (negb debug_assertions || (g_input_count (p_global (constructor_no_more_inputs (constructor_default KModifiable))) + 1 <? U64))
      with true by (rewrite orb_comm; reflexivity).
    cbn [panic_unless bind]. reflexivity.
  - reflexivity.
Qed.
Print Assumptions C17_no_more_refuted.

(** But no constructor that takes inputs (outputs) can be made from the resulting PSBT. *)
Theorem C17_no_more_new : forall k p,
  (takes_inputs k -> forall q, constructor_new k (constructor_no_more_inputs p) <> Ok q)
  /\ (takes_outputs k -> forall q, constructor_new k (constructor_no_more_outputs p) <> Ok q).
Proof.
  intros k p. split; intros Hk q H; apply constructor_new_iff in H as (_ & H1 & H2).
  - specialize (H1 Hk). cbn [constructor_no_more_inputs on_global set_p_global p_global] in H1.
    rewrite clear_inputs_bits, andb_false_r in H1. discriminate.
  - specialize (H2 Hk). cbn [constructor_no_more_outputs on_global set_p_global p_global] in H2.
    rewrite clear_outputs_bits, andb_false_r in H2. discriminate.
Qed.
Print Assumptions C17_no_more_new.

Example C17_example :
  map (fun k => let p := creator_constructor k (creator_sighash_single sample) in (flag p 0, flag p 1, flag p 2)) [KModifiable; KInputsOnly; KOutputsOnly]
    = [(true, true, true); (true, false, true); (false, true, true)] /\
  constructor_new KModifiable sample = Ok sample
  /\ constructor_new KInputsOnly (constructor_no_more_inputs sample) = Err InputsNotModifiable
  /\ is_ok (constructor_updater sample) = true.
Proof. vm_compute. auto. Qed.

(** ** C18: lock time *)

Theorem C18_lock_time : forall p,
  (forall n, determine_lock_time p = Ok n <-> bip370_lock_time p (Some n))
  /\ (determine_lock_time p = Err DetermineLockTimeError <-> bip370_lock_time p None)
  /\ determine_lock_time p <> Panic.
Proof.
  intros p. split; [intros n; apply determine_ok_iff|]. split; [|apply determine_nopanic].
  rewrite <- determine_err_iff. split; [eauto|]. intros [[] H]. exact H.
Qed.
Print Assumptions C18_lock_time.

(** BIP-370 determines a result for every PSBT, and only one. *)
Theorem C18_lock_time_functional : forall p, exists r, bip370_lock_time p r /\ forall r', bip370_lock_time p r' -> r' = r.
Proof.
  intros p. pose proof (determine_bip370 p) as H. destruct (determine_lock_time p) as [n|e|]; [| |tauto];
    (eexists; split; [exact H|]; intros r' H'; eapply bip370_unique; eauto).
Qed.
Print Assumptions C18_lock_time_functional.

Example C18_example :
  determine_lock_time sample = Ok 77
  /\ determine_lock_time (ex_psbt [set_in_min_time (Some 600000000) ex_in_a; ex_in_b] []) = Err DetermineLockTimeError
  /\ determine_lock_time (ex_psbt [set_in_min_time (Some 600000000) ex_in_a; set_in_min_time (Some 600000001) ex_in_b] []) = Ok 600000001.
Proof. vm_compute. auto. Qed.

(** ** C19: the lock time satisfies every input *)

Theorem C19_lock_time_satisfies : forall p n,
  Forall (fun i => opt_of (fun t => 500000000 <= t < 2 ^ 32) (in_min_time i) /\ opt_of (fun h => h < 500000000) (in_min_height i)) (p_inputs p) ->
  determine_lock_time p = Ok n ->
  (n < 500000000 /\ forall i, In i (p_inputs p) -> needs_lock i -> exists h, in_min_height i = Some h /\ h <= n)
  \/ (500000000 <= n /\ forall i, In i (p_inputs p) -> needs_lock i -> exists t, in_min_time i = Some t /\ t <= n)
  \/ (forall i, In i (p_inputs p) -> ~ needs_lock i).
Proof. intros p n Hwf H. apply determine_sound; auto. Qed.
Print Assumptions C19_lock_time_satisfies.

(** Every PSBT that was read meets the hypothesis (and so does every value of the types
    [absolute::Time] and [absolute::Height]). *)
Theorem C19_decoded : forall (X : Ext) (L : ExtLaws X) (C : Cfg) p, wf_psbt p ->
  Forall (fun i => opt_of (fun t => 500000000 <= t < 2 ^ 32) (in_min_time i) /\ opt_of (fun h => h < 500000000) (in_min_height i)) (p_inputs p).
Proof.
  intros X L C p H. eapply Forall_impl; [|exact (wp_inputs _ H)]. intros i Hi. split.
  - exact (wi_min_time _ Hi).
  - exact (wi_min_height _ Hi).
Qed.
Print Assumptions C19_decoded.

Example C19_example : exists i j, In i (p_inputs sample) /\ In j (p_inputs sample)
  /\ in_min_height i = Some 77 /\ determine_lock_time sample = Ok 77 /\ ~ needs_lock j.
Proof.
  destruct (p_inputs sample) as [|j [|i l]] eqn:E; [exfalso; revert E; vm_compute; discriminate..|].
  exists i, j. split; [right; now left|]. split; [now left|].
  assert (Hi : option_map in_min_height (nth_error (p_inputs sample) 1) = Some (Some 77)) by (vm_compute; reflexivity).
  assert (Hj : option_map (fun j => (in_min_time j, in_min_height j)) (nth_error (p_inputs sample) 0) = Some (None, None)) by (vm_compute; reflexivity).
  rewrite E in Hi, Hj. cbn in Hi, Hj. split; [congruence|]. split; [vm_compute; reflexivity|].
  injection Hj as H1 H2. unfold needs_lock. rewrite H1, H2. tauto.
Qed.

(** ** C20: the id *)

(** It is the double SHA-256 of the transaction data in wire format. *)
Theorem C20_id_preimage : forall (X : Ext) p h, tx_data_fits p -> psbt_id p = Ok h ->
  exists n b, bip370_lock_time p (Some n)
    /\ id_preimage (g_tx_version (p_global p)) n (map outpoint_of (p_inputs p)) (map payment_of (p_outputs p)) b
    /\ h = sha256 (sha256 b).
Proof.
  intros X p h (Hv & Hi & Ho & Hwi & Hwo) H. rewrite psbt_id_cases in H.
  destruct (determine_lock_time p) as [n| |] eqn:D; try discriminate. inj H. exists n. eexists.
  split; [now apply determine_ok_iff|]. split; [|reflexivity]. apply id_preimage_enc; rewrite ?blen_map; auto.
  rewrite Forall_map. eapply Forall_impl; [|exact Hwo]. cbn. tauto.
Qed.
Print Assumptions C20_id_preimage.

(** Different data have different wire formats. *)
Theorem C20_preimage_injective : forall v n ops outs v' n' ops' outs' b,
  v < 2 ^ 32 -> n < 2 ^ 32 -> v' < 2 ^ 32 -> n' < 2 ^ 32 ->
  Forall (fun op : bytes * N => length (fst op) = 32%nat /\ snd op < 2 ^ 32) ops ->
  Forall (fun op : bytes * N => length (fst op) = 32%nat /\ snd op < 2 ^ 32) ops' ->
  Forall (fun o : N * bytes => fst o < 2 ^ 64) outs -> Forall (fun o : N * bytes => fst o < 2 ^ 64) outs' ->
  id_preimage v n ops outs b -> id_preimage v' n' ops' outs' b -> v = v' /\ n = n' /\ ops = ops' /\ outs = outs'.
Proof. exact id_preimage_inj. Qed.
Print Assumptions C20_preimage_injective.

(** Nothing else has an influence on the id. *)
Theorem C20_id_depends_only : forall (X : Ext) p q, same_tx_fields p q -> psbt_id p = psbt_id q.
Proof. intros X. exact psbt_id_same. Qed.
Print Assumptions C20_id_depends_only.

Theorem C20_id_updates : forall (X : Ext) p,
  (forall n k q, updater_set_sequence n k p = Ok q -> psbt_id q = psbt_id p)
  /\ (forall ty, psbt_id (signer_clear_tx_modifiable ty p) = psbt_id p)
  /\ (forall l1 i l2 sigs, p_inputs p = l1 ++ i :: l2 ->
        psbt_id (set_p_inputs (l1 ++ set_in_partial_sigs sigs i :: l2) p) = psbt_id p).
Proof.
  intros X p. split; [|split].
  - intros n k q H. symmetry. eapply psbt_id_same, set_sequence_same, H.
  - intros ty. symmetry. apply psbt_id_same, clear_flags_same.
  - intros l1 i l2 sigs H. apply psbt_id_same. repeat split; cbn [set_p_inputs p_inputs p_outputs p_global].
    + rewrite H. assert (R : forall l, Forall2 (fun i j => outpoint_of i = outpoint_of j /\ in_min_time i = in_min_time j /\ in_min_height i = in_min_height j) l l).
      { induction l; constructor; auto. }
      apply Forall2_app; auto.
    + induction (p_outputs p); constructor; auto.
Qed.
Print Assumptions C20_id_updates.

Example C20_example : is_ok (psbt_id sample) = true
  /\ match updater_set_sequence 5 0 sample with Ok q => psbt_id q = psbt_id sample /\ unsigned_tx q <> unsigned_tx sample | _ => False end.
Proof.
  split; [vm_compute; reflexivity|]. destruct (updater_set_sequence 5 0 sample) as [q| |] eqn:E.
  - split; [eapply C20_id_updates; exact E|]. intros H.
    assert (A : match updater_set_sequence 5 0 sample with
                | Ok q => match unsigned_tx q with Ok t => map ti_sequence (tx_input t) | _ => [] end | _ => [] end = [5; 10]) by (vm_compute; reflexivity).
    rewrite E, H in A. revert A. vm_compute. discriminate.
  - revert E. vm_compute. discriminate.
  - revert E. vm_compute. discriminate.
Qed.

(** ** C21: role values can always compute their id and transaction *)

Theorem C21_roles_infallible : forall (X : Ext) (C : Cfg) p,
  (updater_value p -> exists h, updater_id p = Ok (E := Empty_set) h)
  /\ (signer_value p -> (exists h, signer_id p = Ok h) /\ exists t, signer_unsigned_tx p = Ok (E := Empty_set) t)
  /\ (extractor_value p -> exists h, extractor_id p = Ok (E := Empty_set) h).
Proof.
  intros X C p. unfold updater_id, signer_id, extractor_id, signer_unsigned_tx.
  assert (A : forall n, determine_lock_time p = Ok n -> exists h, psbt_id p = Ok h) by (intros n H; rewrite psbt_id_cases, H; eauto).
  split; [|split].
  - intros H. apply updater_value_lock in H as [n H]. destruct (A n H) as [h ->]. cbn. eauto.
  - intros H. apply signer_value_lock in H as [n H]. destruct (A n H) as [h ->].
    rewrite (unsigned_tx_ok _ _ H). cbn. eauto.
  - intros H. inversion H as [p' q E]; subst. apply extractor_new_ok in E as (-> & _ & n & Hn).
    apply determine_ok_iff in Hn. destruct (A n Hn) as [h ->]. cbn. eauto.
Qed.
Print Assumptions C21_roles_infallible.

Example C21_example : updater_value sample /\ signer_value (signer_clear_tx_modifiable 1 sample)
  /\ extractor_value (ex_psbt [final ex_in_a; final ex_in_b] [ex_out]).
Proof.
  split; [apply (UNew sample); vm_compute; reflexivity|]. split.
  - apply SClear, (SNew sample). vm_compute. reflexivity.
  - apply (ENew (ex_psbt [final ex_in_a; final ex_in_b] [ex_out])). vm_compute. reflexivity.
Qed.

(** ** C22 (the flags byte): what signing with a given type does to the flags *)

(** The bits of an ECDSA sighash type: 0x80 is ANYONECANPAY, the rest 1 ALL, 2 NONE, 3 SINGLE. *)
Theorem C22_flags : forall ty p, In ty [1; 2; 3; 129; 130; 131] ->
  let old := g_tx_modifiable_flags (p_global p) in
  let new := g_tx_modifiable_flags (p_global (signer_clear_tx_modifiable ty p)) in
  let anyone_can_pay := N.testbit ty 7 in
  let base := ty mod 128 in
  N.testbit new 0 = N.testbit old 0 && anyone_can_pay
  /\ N.testbit new 1 = N.testbit old 1 && (base =? 2)
  /\ N.testbit new 2 = N.testbit old 2 || (base =? 3)
  /\ (forall n, 3 <= n -> N.testbit new n = N.testbit old n)
  /\ exists f, signer_clear_tx_modifiable ty p = Psbt (set_g_tx_modifiable_flags f (p_global p)) (p_inputs p) (p_outputs p).
Proof.
  intros ty p Hty old new acp base. unfold new, signer_clear_tx_modifiable. split; [|split; [|split; [|split]]].
  5:{ apply clear_tx_rest. }
  1-3: rewrite clear_tx_bits; cbv zeta; cbn [N.eqb Pos.eqb]; unfold old, acp, base;
    repeat (destruct Hty as [<-|Hty]; [cbn; rewrite ?andb_true_r, ?andb_false_r, ?orb_false_r, ?orb_true_r; reflexivity|]); destruct Hty.
  intros n Hn. rewrite clear_tx_bits. cbv zeta. destruct (N.eqb_spec n 0); [lia|]. destruct (N.eqb_spec n 1); [lia|].
  destruct (N.eqb_spec n 2); [lia|]. reflexivity.
Qed.
Print Assumptions C22_flags.

Example C22_example : map (fun ty => g_tx_modifiable_flags (p_global (signer_clear_tx_modifiable ty sample))) [1; 2; 3; 129; 130; 131]
  = [0; 2; 4; 1; 3; 5].
Proof. vm_compute. reflexivity. Qed.

(** ** C23: the fee *)

Theorem C23_fee_ok : forall p f, psbt_fee p = Ok f <->
  exists vs, funded (p_inputs p) vs /\ total vs < 2 ^ 64 /\ total (map out_amount (p_outputs p)) < 2 ^ 64
    /\ total vs = total (map out_amount (p_outputs p)) + f.
Proof.
  intros p f. pose proof (psbt_fee_spec p) as H. fold (amounts p). change (2 ^ 64) with U64. split.
  - intros E. rewrite E in H. exact H.
  - intros (vs & F & Hv & Ho & Hf). destruct (psbt_fee p) as [g|e|]; [| |tauto].
    + destruct H as (ws & F' & _ & _ & Hg). pose proof (funded_unique _ _ _ F F') as <-. f_equal. lia.
    + exfalso. destruct e as [e| | |].
      * destruct H as (l1 & i & l2 & ws & E & F' & _ & Hi). rewrite E in F. apply Forall2_app_inv_l in F as (w1 & w2 & _ & F2 & _).
        inversion F2 as [|? ? ? ? (u & Hu & _)]; subst. apply funding_ok_iff in Hu. congruence.
      * destruct H as (l1 & i & l2 & ws & u & E & F' & _ & Hu & Hov). rewrite E in F. apply Forall2_app_inv_l in F as (w1 & w2 & F1 & F2 & ->).
        pose proof (funded_unique _ _ _ F' F1) as <-. inversion F2 as [|? ? ? ? (u' & Hu' & Hv')]; subst.
        apply funding_ok_iff in Hu, Hu'. rewrite Hu in Hu'. inj Hu'. rewrite total_app, total_cons in Hv. lia.
      * destruct H as (ws & _ & _ & Hov). lia.
      * destruct H as (ws & F' & _ & _ & Hneg). pose proof (funded_unique _ _ _ F F') as <-. lia.
Qed.
Print Assumptions C23_fee_ok.

(** The error names the first cause; inputs are looked at in order, before the outputs. *)
Theorem C23_fee_error : forall p,
  match psbt_fee p with
  | Ok f => True
  | Err (FeeFundingUtxo e) => exists l1 i l2 vs, p_inputs p = l1 ++ i :: l2 /\ funded l1 vs /\ total vs < 2 ^ 64 /\
      (forall u, ~ funds i u) /\ input_funding_utxo i = Err e
  | Err FeeInputOverflow => exists l1 i l2 vs u, p_inputs p = l1 ++ i :: l2 /\ funded l1 vs /\ total vs < 2 ^ 64 /\
      funds i u /\ 2 ^ 64 <= total vs + to_value u
  | Err FeeOutputOverflow => exists vs, funded (p_inputs p) vs /\ total vs < 2 ^ 64 /\
      2 ^ 64 <= total (map out_amount (p_outputs p))
  | Err FeeNegative => exists vs, funded (p_inputs p) vs /\ total vs < 2 ^ 64 /\
      total (map out_amount (p_outputs p)) < 2 ^ 64 /\ total vs < total (map out_amount (p_outputs p))
  | Panic => False
  end.
Proof.
  intros p. pose proof (psbt_fee_spec p) as H. destruct (psbt_fee p) as [f|[e| | |]|]; auto.
  destruct H as (l1 & i & l2 & vs & H1 & H2 & H3 & H4). exists l1, i, l2, vs. repeat split; auto.
  intros u Hu. apply funding_ok_iff in Hu. congruence.
Qed.
Print Assumptions C23_fee_error.

Example C23_example :
  psbt_fee sample = Ok 2000
  /\ psbt_fee (ex_psbt [fund 10 ex_in_a] [ex_out]) = Err FeeNegative
  /\ psbt_fee (ex_psbt [fund 10 ex_in_a; ex_in_b] [ex_out]) = Err (FeeFundingUtxo FMissingUtxo)
  /\ psbt_fee (ex_psbt [fund (2 ^ 63) ex_in_a; fund (2 ^ 63) ex_in_b; ex_in_a] []) = Err FeeInputOverflow.
Proof. vm_compute. auto. Qed.

(** ** C24: the fee rate limit *)

(** Unless the fee is above 2^64/1000 satoshi (more than there can be). *)
Theorem C24_limit : forall (X : Ext) (C : Cfg) m p fee,
  extractor_value p -> psbt_fee p = Ok fee -> fee * 1000 < 2 ^ 64 ->
  exists t, extract_tx_unchecked p = Ok t /\
    (extract_tx_with_fee_rate_limit m p = Ok t <-> fee * 1000 / tx_weight t <= m) /\
    (forall r l, extract_tx_with_fee_rate_limit m p = Err (EFFeeTooHigh r l)
                 <-> m < fee * 1000 / tx_weight t /\ r = fee * 1000 / tx_weight t /\ l = m) /\
    (extract_tx_with_fee_rate_limit m p = Ok t -> fee * 1000 < (m + 1) * tx_weight t).
Proof.
  intros X C m p fee Hx Hf Hb. inversion Hx as [p' q E]; subst. apply extractor_new_ok in E as (-> & F & n & Hn).
  destruct (extract_limit_cases m p' n F Hn) as (t & Ht & Hc). destruct (extract_unchecked_ok _ _ F Hn) as (t' & Hu & Ht').
  assert (t' = t) as -> by (eapply extracted_unique; eauto). exists t. split; auto. rewrite Hf in Hc. cbv zeta in Hc.
  replace (N.min (fee * 1000) (U64 - 1)) with (fee * 1000) in Hc by (change (2 ^ 64) with U64 in Hb; lia).
  pose proof (tx_weight_pos t) as Hw. rewrite Hc. destruct (N.ltb_spec m (fee * 1000 / tx_weight t)) as [H|H].
  - split; [|split].
    + split; [discriminate|lia].
    + intros r l. split; [intros [= <- <-]; auto|]. intros (_ & -> & ->). reflexivity.
    + discriminate.
  - split; [|split].
    + split; auto.
    + intros r l. split; [discriminate|lia].
    + intros _. pose proof (N.mul_succ_div_gt (fee * 1000) (tx_weight t)). nia.
Qed.
Print Assumptions C24_limit.

(** The default limit is 25000 sat/vB; one vbyte is four weight units. *)
Theorem C24_default_limit : forall (X : Ext) (C : Cfg) p t, extractor_value p -> extract_tx p = Ok t ->
  exists fee, psbt_fee p = Ok fee /\ (fee * 1000 < 2 ^ 64 -> fee * 1000 < (25000 * 1000 / 4 + 1) * tx_weight t).
Proof.
  intros X C p t Hx H. assert (Hf : exists fee, psbt_fee p = Ok fee).
  { unfold extract_tx, extract_tx_with_fee_rate_limit in H. apply bind_ok in H as (fee & H & _). apply map_err_ok in H. eauto. }
  destruct Hf as [fee Hf]. exists fee. split; auto. intros Hb.
  destruct (C24_limit X C DEFAULT_MAX_FEE_RATE p fee Hx Hf Hb) as (t' & _ & H1 & H2 & H3). unfold extract_tx in H.
  assert (t' = t) as ->; [|exact (H3 H)].
  destruct (N.le_gt_cases (fee * 1000 / tx_weight t') DEFAULT_MAX_FEE_RATE) as [Hle|Hgt].
  - apply H1 in Hle. congruence.
  - assert (E : extract_tx_with_fee_rate_limit DEFAULT_MAX_FEE_RATE p = Err (EFFeeTooHigh (fee * 1000 / tx_weight t') DEFAULT_MAX_FEE_RATE)) by (apply H2; auto).
    congruence.
Qed.
Print Assumptions C24_default_limit.

(** Without the bound on the fee the claim is false: the rate saturates. *)
Theorem C24_saturation_refuted : exists m p fee t, extractor_value p /\ psbt_fee p = Ok fee /\ m < 2 ^ 64
  /\ extract_tx_with_fee_rate_limit m p = Ok t /\ m < fee * 1000 / tx_weight t.
Proof.
  exists (2 ^ 64 - 1), (ex_psbt [final (fund (2 ^ 64 - 1) ex_in_a)] []), (2 ^ 64 - 1).
  exists (Tx 2 0 [TxIn txid_a 1 [] (2 ^ 32 - 1) [pk_a]] []).
  split; [apply (ENew (ex_psbt [final (fund (2 ^ 64 - 1) ex_in_a)] [])); vm_compute; reflexivity|].
  vm_compute. auto.
Qed.
Print Assumptions C24_saturation_refuted.

Example C24_example : let p := ex_psbt [final (fund 1000000000 ex_in_a)] [ex_out] in
  extractor_value p /\ psbt_fee p = Ok 999996000
  /\ extract_tx p = Err (EFFeeTooHigh 2739715068 6250000)
  /\ is_ok (extract_tx_with_fee_rate_limit 6250000000 p) = true.
Proof.
  cbv zeta. split; [|vm_compute; auto].
  apply (ENew (ex_psbt [final (fund 1000000000 ex_in_a)] [ex_out])). vm_compute. reflexivity.
Qed.

(** ** C25: extraction *)

Theorem C25_extractor_new : forall (X : Ext) (C : Cfg) p,
  (forall q, extractor_new p = Ok q <-> q = p /\ Forall finalized (p_inputs p) /\ exists n, bip370_lock_time p (Some n))
  /\ extractor_new p <> Panic.
Proof. intros X C p. split; [apply extractor_new_ok|apply extractor_new_nopanic]. Qed.
Print Assumptions C25_extractor_new.

Theorem C25_extracts : forall (X : Ext) (C : Cfg) p, extractor_value p ->
  exists n t, bip370_lock_time p (Some n) /\ extracted p n t /\ extract_tx_unchecked p = Ok t
    /\ (forall m t', extract_tx_with_fee_rate_limit m p = Ok t' -> t' = t)
    /\ (forall t', extract_tx p = Ok t' -> t' = t)
    /\ (forall m, match extract_tx_with_fee_rate_limit m p with
                  | Ok _ | Err (EFFee _) | Err (EFFeeTooHigh _ _) => True
                  | _ => False
                  end).
Proof.
  intros X C p Hx. inversion Hx as [p' q E]; subst. apply extractor_new_ok in E as (-> & F & n & Hn).
  destruct (extract_unchecked_ok _ _ F Hn) as (t & Hu & Ht). exists n, t. repeat split; auto; try apply Ht.
  - intros m t' H. destruct (extract_limit_cases m p' n F Hn) as (t1 & Ht1 & Hc). rewrite Hc in H. clear Hc.
    destruct (psbt_fee p'); try discriminate. cbv zeta in H. destruct (m <? _); [discriminate|]. inj H. eapply extracted_unique; eauto.
  - intros t' H. destruct (extract_limit_cases DEFAULT_MAX_FEE_RATE p' n F Hn) as (t1 & Ht1 & Hc). unfold extract_tx in H. rewrite Hc in H. clear Hc.
    destruct (psbt_fee p'); try discriminate. cbv zeta in H. destruct (DEFAULT_MAX_FEE_RATE <? _); [discriminate|]. inj H. eapply extracted_unique; eauto.
  - intros m. destruct (extract_limit_cases m p' n F Hn) as (t1 & Ht1 & ->). pose proof (psbt_fee_spec p') as Hf.
    destruct (psbt_fee p'); [|exact I|exact Hf]. cbv zeta. destruct (m <? _); exact I.
Qed.
Print Assumptions C25_extracts.

Example C25_example : let p := ex_psbt [final (fund 5000 ex_in_a); set_in_sequence (Some 3) (final (fund 5000 ex_in_b))] [ex_out] in
  extractor_value p
  /\ extract_tx p = Ok (Tx 2 77 [TxIn txid_a 1 [] (2 ^ 32 - 1) [pk_a]; TxIn txid_b 0 [] 3 [pk_a]] [TxOut 4000 p2wpkh_a]).
Proof.
  cbv zeta. split; [|vm_compute; reflexivity].
  apply (ENew (ex_psbt [final (fund 5000 ex_in_a); set_in_sequence (Some 3) (final (fund 5000 ex_in_b))] [ex_out])). vm_compute. reflexivity.
Qed.

(** ** C26: what is extracted is what was signed *)

(** Exactly when every input has a sequence number: signers see 0 for a missing one,
    the extracted transaction has 0xffffffff. *)
Theorem C26_signed_is_extracted_iff : forall (X : Ext) (C : Cfg) p, extractor_value p ->
  exists t u, extract_tx_unchecked p = Ok t /\ signer_unsigned_tx p = Ok (E := Empty_set) u
    /\ (strip_signatures t = u <-> Forall (fun i => in_sequence i <> None) (p_inputs p)).
Proof.
  intros X C p Hx. inversion Hx as [p' q E]; subst. apply extractor_new_ok in E as (-> & F & n & Hn).
  destruct (extract_unchecked_ok _ _ F Hn) as (t & Hu & Ht). pose proof Hn as D. apply determine_ok_iff in D.
  destruct (strip_extracted _ _ _ Ht D) as (u & Hu' & Hiff). exists t, u. split; auto. split; auto.
  unfold signer_unsigned_tx. now rewrite Hu'.
Qed.
Print Assumptions C26_signed_is_extracted_iff.

Theorem C26_signed_is_extracted_refuted : exists p t u, extractor_value p
  /\ extract_tx_unchecked p = Ok t /\ signer_unsigned_tx p = Ok (E := Empty_set) u /\ strip_signatures t <> u.
Proof.
  exists (ex_psbt [final (fund 5000 ex_in_a)] [ex_out]).
  exists (Tx 2 0 [TxIn txid_a 1 [] (2 ^ 32 - 1) [pk_a]] [TxOut 4000 p2wpkh_a]).
  exists (Tx 2 0 [TxIn txid_a 1 [] 0 []] [TxOut 4000 p2wpkh_a]).
  split; [apply (ENew (ex_psbt [final (fund 5000 ex_in_a)] [ex_out])); vm_compute; reflexivity|].
  split; [vm_compute; reflexivity|]. split; [vm_compute; reflexivity|]. vm_compute. discriminate.
Qed.
Print Assumptions C26_signed_is_extracted_refuted.

(** ** C29: index-based updates *)

Theorem C29_set_sequence : forall n k p,
  match updater_set_sequence n k p with
  | Ok q => k < blen (p_inputs p) /\ k < g_input_count (p_global p)
      /\ p_global q = p_global p /\ p_outputs q = p_outputs p /\ length (p_inputs q) = length (p_inputs p)
      /\ (forall j, j <> N.to_nat k -> nth_error (p_inputs q) j = nth_error (p_inputs p) j)
      /\ exists i i', nth_error (p_inputs p) (N.to_nat k) = Some i /\ nth_error (p_inputs q) (N.to_nat k) = Some i'
           /\ in_sequence i' = Some n /\ set_in_sequence (in_sequence i) i' = i
  | Err (IdxInputs j l) => blen (p_inputs p) <= k /\ j = k /\ l = blen (p_inputs p)
  | Err (IdxCount j c) => k < blen (p_inputs p) /\ g_input_count (p_global p) <= k /\ j = k /\ c = g_input_count (p_global p)
  | Panic => False
  end.
Proof.
  intros n k p. pose proof (set_sequence_cases n k p) as H. pose proof (set_sequence_ok n k p) as Hok.
  destruct (updater_set_sequence n k p) as [q|e|] eqn:E.
  - destruct (Hok q eq_refl) as (i & Hi & H1 & H2 & ->). cbn [p_global p_inputs p_outputs].
    repeat split; auto; [apply set_nth_length|intros j Hj; apply set_nth_other; auto|].
    exists i, (set_in_sequence (Some n) i). repeat split; auto.
    + apply set_nth_same. apply nth_error_Some. congruence.
    + destruct i; reflexivity.
  - destruct (N.leb_spec (blen (p_inputs p)) k).
    + injection H as ->. auto.
    + destruct (N.leb_spec (g_input_count (p_global p)) k); [injection H as ->; auto|].
      destruct (nth_error _ _); discriminate.
  - destruct (N.leb_spec (blen (p_inputs p)) k); [discriminate|].
    destruct (N.leb_spec (g_input_count (p_global p)) k); [discriminate|].
    destruct (nth_error (p_inputs p) (N.to_nat k)) eqn:En; [discriminate|]. apply nth_error_None in En. unfold blen in *. lia.
Qed.
Print Assumptions C29_set_sequence.

Example C29_example :
  is_ok (updater_set_sequence 5 1 sample) = true /\ updater_set_sequence 5 2 sample = Err (IdxInputs 2 2)
  /\ updater_set_sequence 5 1 (on_global (set_g_input_count 1) sample) = Err (IdxCount 1 1).
Proof. vm_compute. auto. Qed.

(** ** C44: funding utxo *)

Theorem C44_funding_utxo : forall i,
  (forall u, input_funding_utxo i = Ok u <-> funds i u)
  /\ (input_funding_utxo i = Err FMissingUtxo <-> in_witness_utxo i = None /\ in_non_witness_utxo i = None)
  /\ (forall v n, input_funding_utxo i = Err (FOutOfBounds v n) <->
        in_witness_utxo i = None /\ exists t, in_non_witness_utxo i = Some t /\ blen (tx_output t) <= in_spent_output_index i
        /\ v = in_spent_output_index i /\ n = blen (tx_output t))
  /\ input_funding_utxo i <> Panic.
Proof.
  intros i. split; [intros u; apply funding_ok_iff|]. split; [apply funding_missing_iff|].
  split; [intros; apply funding_oob_iff|apply funding_nopanic].
Qed.
Print Assumptions C44_funding_utxo.

Example C44_example : let t := Tx 2 0 [] [TxOut 1 []; TxOut 2 [x51]] in
  input_funding_utxo (set_in_non_witness_utxo (Some t) ex_in_a) = Ok (TxOut 2 [x51])
  /\ input_funding_utxo (fund 9 (set_in_non_witness_utxo (Some t) ex_in_a)) = Ok (TxOut 9 p2wpkh_a)
  /\ input_funding_utxo (set_in_spent_output_index 2 (set_in_non_witness_utxo (Some t) ex_in_a)) = Err (FOutOfBounds 2 2).
Proof. vm_compute. auto. Qed.
