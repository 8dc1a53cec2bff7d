(** C145: the finalizers of version 0 and version 2 agree. *)
From Verif Require Import Base OMap Consensus ConsensusFacts Ext ExtInstance Raw RawFacts TapTree SpecCodec Serialize SerializeFacts MapCodec
  V2Global V2Input V2Output V2Psbt V2Roles SpecRoles V2RolesFacts PropertiesV2Roles Script SighashType V2Sign SignInstance SpecSign V2SignFacts
  PropertiesV2Sign V2Finalize SpecFinalize MsInstance PropertiesV2Finalize V0Error V0Input V0Output V0Psbt SpecPsbt0 V0Sign V0Finalize MsInstance0
  SpecTwoVersions SpecTwoFinalize SampleV2 PropertiesV2Spend.
Local Open Scope N_scope.

(** Used by the examples only; the theorems bind their own. *)
#[local] Existing Instance toy | 100.
#[local] Instance ex_cfg : Cfg | 100 := cfg_of false false.
#[local] Existing Instance toy_sign | 100.
#[local] Existing Instance toy_ms0 | 100.
#[local] Existing Instance toy_nm | 100.

Section Agree.
Context `{X : Ext} `{M : MsExt} `{NM : !MsNmExt M}.

Lemma known_form l : known_keys0 (map v0_input l) = known_keys l.
Proof.
  unfold known_keys0, known_keys. generalize (@nil (bytes * pubkey)). induction l as [|i l IH]; intros acc; cbn [map fold_left]; [reflexivity|].
  apply IH.
Qed.
Lemma after_form lock p i n : locks_kept lock p i -> check_after i n = check_after0 (p0_unsigned_tx (v0_form lock p)) (v0_txin i) n.
Proof.
  intros H. unfold check_after, check_after0. cbn [v0_form p0_unsigned_tx tx_lock_time v0_txin ti_sequence].
  destruct H as [Hs Ht Hh|s Hs Hm Hv Hh Ht Hl|s Hs Hm Hv Ht Hh Hl]; rewrite Ht, Hh.
  - replace (_ =? SEQ_MAX) with true by (destruct Hs as [-> | ->]; reflexivity). now destruct (n <? LOCK_TIME_THRESHOLD).
  - rewrite Hs. replace (s =? SEQ_MAX) with false by (change SEQ_MAX with (2 ^ 32 - 1); lia).
    replace (lock <? LOCK_TIME_THRESHOLD) with true by (unfold LOCK_TIME_THRESHOLD; lia). now destruct (n <? LOCK_TIME_THRESHOLD).
  - rewrite Hs. replace (s =? SEQ_MAX) with false by (change SEQ_MAX with (2 ^ 32 - 1); lia).
    replace (lock <? LOCK_TIME_THRESHOLD) with false by (unfold LOCK_TIME_THRESHOLD; lia). now destruct (n <? LOCK_TIME_THRESHOLD).
Qed.
Lemma older_form lock p i n : locks_kept lock p i -> check_older i n = check_older0 (p0_unsigned_tx (v0_form lock p)) (v0_txin i) n.
Proof.
  intros H. unfold check_older, check_older0. cbn [v0_form p0_unsigned_tx tx_version v0_txin ti_sequence].
  destruct H as [Hs Ht Hh|s Hs Hm Hv Hh Ht Hl|s Hs Hm Hv Ht Hh Hl].
  - destruct (_ || _); destruct Hs as [-> | ->]; reflexivity.
  - rewrite Hs. now replace ((g_tx_version (p_global p) <? 2) || (2 ^ 31 <=? g_tx_version (p_global p))) with false by lia.
  - rewrite Hs. now replace ((g_tx_version (p_global p) <? 2) || (2 ^ 31 <=? g_tx_version (p_global p))) with false by lia.
Qed.
Lemma answers_form lock p i : locks_kept lock p i ->
  same_answers (input_satisfier i) (psbt_input_satisfier (p0_unsigned_tx (v0_form lock p)) (v0_txin i) (v0_input i)).
Proof. intros H. constructor; intros; try reflexivity; [now apply after_form|now apply older_form]. Qed.
Lemma satisfaction_form d s s' : asks_only M -> same_answers s s' -> desc_satisfaction0 true d s' = desc_satisfaction d s.
Proof.
  intros HM H. unfold desc_satisfaction0, desc_satisfaction, satisfy0.
  destruct d; rewrite ?(sa_ecdsa _ _ H), ?(HM _ _ _ _ H); reflexivity.
Qed.
Lemma utxo_form p lock n i u : nth_error (p_inputs p) (N.to_nat n) = Some i -> funds i u ->
  get_scriptpubkey (v0_form lock p) n = Ok (to_script u) /\ input_funding_utxo i = Ok u.
Proof.
  intros Hi Hu. assert (E : input_funding_utxo i = Ok u) by now apply funding_ok_iff. split; [|exact E].
  unfold get_scriptpubkey, get_utxo. cbn [v0_form p0_inputs p0_unsigned_tx tx_input]. rewrite !nth_N_nth, !nth_error_map, Hi.
  cbn [option_map expect bind v0_input i0_witness_utxo i0_non_witness_utxo].
  unfold input_funding_utxo in E. destruct (in_witness_utxo i); [injection E as ->; reflexivity|].
  destruct (in_non_witness_utxo i) as [t|]; [|discriminate]. cbn [bind v0_txin ti_vout].
  destruct (nth_N (tx_output t) (in_spent_output_index i)); cbn [Base.ok_or] in E; [injection E as ->; reflexivity|discriminate].
Qed.
Lemma descriptor_form p lock n i u : nth_error (p_inputs p) (N.to_nat n) = Some i -> funds i u ->
  match get_descriptor (p_inputs p) i, get_descriptor0 (v0_form lock p) n with
  | Ok d, Ok d0 => d = d0
  | Err e, Err e0 => same_final_problem e e0
  | _, _ => False
  end.
Proof.
  intros Hi Hu. destruct (utxo_form p lock n i u Hi Hu) as [E0 E]. unfold get_descriptor, get_descriptor0. cbv zeta. rewrite E0, E.
  cbn [v0_form p0_inputs]. rewrite nth_N_nth, nth_error_map, Hi. cbn [option_map expect expect_ok bind].
  rewrite known_form. cbn [v0_input i0_partial_sigs i0_redeem_script i0_witness_script]. change (find_wpkh0 (v0_input i)) with (find_wpkh i).
  unfold new_desc, new_desc0.
  repeat match goal with
  | |- context [if ?b then _ else _] => destruct b
  | |- context [match find ?f ?l with _ => _ end] => destruct (find f l) as [[]|]
  | |- context [match find_wpkh ?f ?l with _ => _ end] => destruct (find_wpkh f l) as [[]|]
  | |- context [match in_redeem_script i with _ => _ end] => destruct (in_redeem_script i); cbn [is_some]
  | |- context [match in_witness_script i with _ => _ end] => destruct (in_witness_script i); cbn [is_some]
  | |- context [Base.ok_or (ms_parse ?c ?s)] => destruct (ms_parse c s); cbn [Base.ok_or bind]
  | |- context [match de_pubkey ?x with _ => _ end] => destruct (de_pubkey x)
  end; try reflexivity; try constructor.
Qed.
Lemma origins_form l keys : Forall (fun j => in_tap_key_origins j = []) l ->
  fold_left (fun acc i => fold_left (fun acc e => m_put bkey (hash160 (fst e)) (fst e) acc) (i0_tap_key_origins i) acc) (map v0_input l) keys = keys.
Proof.
  intros H. revert keys. induction H as [|j l Hj _ IH]; intros keys; cbn [map fold_left]; [reflexivity|].
  cbn [v0_input i0_tap_key_origins]. rewrite Hj. apply IH.
Qed.
Lemma tap_keys_form l1 i l2 : Forall (fun j => in_tap_key_origins j = []) (l1 ++ l2) ->
  tap_key_map0 (map v0_input (l1 ++ i :: l2)) = tap_key_map i.
Proof.
  intros H. apply Forall_app in H as [H1 H2]. unfold tap_key_map0. rewrite map_app, fold_left_app, (origins_form l1 [] H1).
  cbn [map fold_left]. apply (origins_form l2). exact H2.
Qed.
Lemma tap_loop_form keys s s' l : asks_only M -> same_answers s s' -> forall best, tap_loop0 true keys s' l best = tap_loop keys s l best.
Proof.
  intros HM H. induction l as [|leaf l IH]; intros best; cbn [tap_loop0 tap_loop]; [reflexivity|]. rewrite IH. f_equal.
  unfold leaf_witness0, leaf_witness, satisfy0. destruct leaf as [cb [script ver]]. destruct (negb _); [reflexivity|].
  destruct (ms_parse CTap script); [|reflexivity]. cbv zeta. rewrite (HM _ _ _ _ H). reflexivity.
Qed.

End Agree.

(** The script sig and the witness that are found for an input are the same, and where none are found
    the problem is the same. *)
Theorem C145_finalize : forall (X : Ext) (M : MsExt) (NM : MsNmExt M) p lock n i u, asks_only M ->
  nth_error (p_inputs p) (N.to_nat n) = Some i -> funds i u -> own_leaf_keys p i u -> locks_kept lock p i ->
  match final_script_sig_and_witness (p_inputs p) i, build_final true (v0_form lock p) n with
  | Ok (ss, w), Ok (w0, ss0) => ss = ss0 /\ w = w0
  | Err e, Err e0 => same_final_problem e e0
  | _, _ => False
  end.
Proof.
  intros X M NM p lock n i u HM Hi Hu Hl Hk. destruct (utxo_form p lock n i u Hi Hu) as [E0 E].
  pose proof (descriptor_form p lock n i u Hi Hu) as D. unfold final_script_sig_and_witness, build_final. cbv zeta. rewrite E0, E.
  assert (A1 : nth_N (p0_inputs (v0_form lock p)) n = Some (v0_input i)) by (cbn [v0_form p0_inputs]; now rewrite nth_N_nth, nth_error_map, Hi).
  assert (A2 : nth_N (tx_input (p0_unsigned_tx (v0_form lock p))) n = Some (v0_txin i))
    by (cbn [v0_form p0_unsigned_tx tx_input]; now rewrite nth_N_nth, nth_error_map, Hi).
  rewrite A1, A2. cbn [option_map expect expect_ok bind].
  destruct (is_p2tr (to_script u)) eqn:Et.
  - unfold construct_tap_witness, construct_tap_witness0. rewrite Et. cbn [panic_unless bind psbt_input_satisfier sat_tap_key v0_input i0_tap_key_sig].
    fold (psbt_input_satisfier (p0_unsigned_tx (v0_form lock p)) (v0_txin i) (v0_input i)).
    destruct (in_tap_key_sig i) as [sg|] eqn:Es; cbn [bind]; [auto|].
    destruct Hl as [Hl|Hl|l1 l2 Hl Ho]; [exfalso; apply is_p2tr_iff in Et as [k Et]; exact (Hl k Et)|contradiction|].
    cbn [i0_tap_scripts]. rewrite (tap_loop_form _ _ _ _ HM (answers_form lock p i Hk)).
    replace (tap_key_map0 (p0_inputs (v0_form lock p))) with (tap_key_map i)
      by (cbn [v0_form p0_inputs]; rewrite Hl; symmetry; now apply tap_keys_form).
    destruct (tap_loop _ _ _ _); cbn [Base.ok_or bind]; [auto|constructor].
  - destruct (get_descriptor (p_inputs p) i) as [d|e|], (get_descriptor0 _ n) as [d0|e0|]; try contradiction; cbn [bind]; [|exact D].
    subst d0. rewrite (satisfaction_form d _ _ HM (answers_form lock p i Hk)).
    destruct (desc_satisfaction d (input_satisfier i)) as [[w ss]|]; cbn [Base.ok_or bind]; [auto|constructor].
Qed.
Print Assumptions C145_finalize.

(** ** Examples *)

Lemma toy_multi_ext f g ks : (forall k, f k = g k) -> toy_multi f ks = toy_multi g ks.
Proof. intros H. induction ks as [|k ks IH]; cbn [toy_multi]; [reflexivity|]. now rewrite H, IH. Qed.
Lemma toy_asks_only : asks_only toy_ms0.
Proof.
  intros c m s s' H. cbn [toy_ms0 ms_satisfy]. unfold toy_satisfy0, toy_known, toy_satisfy.
  destruct (toy_script0 (fst m)).
  - rewrite (sa_pkh_ecdsa _ _ H), (sa_ecdsa _ _ H), (sa_pkh_pk _ _ H). reflexivity.
  - rewrite !(sa_sha256 _ _ H). reflexivity.
  - destruct (toy_script (fst m)) as [[k|k n|ks]|]; rewrite ?(sa_ecdsa _ _ H), ?(sa_after _ _ H); try reflexivity.
    apply toy_multi_ext. intros k. now rewrite (sa_tap_leaf _ _ H).
Qed.

(** An input that may be spent from height 16 on, in a PSBT that has this lock time. *)
Definition tf_wsh : input := fx_sig [x07] (set_in_sequence (Some 0) fx_wsh).
Definition tf_high : psbt := ex_of 0 [tf_wsh].
Example C145_finalize_example :
  asks_only toy_ms0 /\ locks_kept 16 tf_high tf_wsh /\ bip370_lock_time tf_high (Some 16)
  /\ (exists u, funds tf_wsh u /\ own_leaf_keys tf_high tf_wsh u)
  /\ is_ok (final_script_sig_and_witness (p_inputs tf_high) tf_wsh) = true
  /\ is_ok (build_final true (v0_form 16 tf_high) 0) = true.
Proof.
  split; [exact toy_asks_only|]. 
  split; [eapply LKHeight; [reflexivity|discriminate|vm_compute; split; [discriminate|reflexivity]|reflexivity|reflexivity|reflexivity]|].
  split; [apply (C18_lock_time tf_high); vm_compute; reflexivity|].
  split; [|split; vm_compute; reflexivity].
  eexists. split; [left; reflexivity|]. apply OLOther. intros k Hk. assert (Q : is_p2tr (to_script (TxOut 5000 (program_script 0 (sha256 fx_after)))) = true).
  { apply is_p2tr_iff. exists k. exact Hk. }
  revert Q. vm_compute. discriminate.
Qed.

(** A taproot input that is spent by one of its leaves, next to another input. *)
Definition tf_tap : input := set_in_sequence (Some (2 ^ 32 - 1)) fx_tap.
Example C145_finalize_leaf_example :
  let p := ex_of 0 [tf_wsh; tf_tap] in
  locks_kept 16 p tf_tap /\ (exists u, funds tf_tap u /\ own_leaf_keys p tf_tap u)
  /\ is_ok (final_script_sig_and_witness (p_inputs p) tf_tap) = true /\ is_ok (build_final true (v0_form 16 p) 1) = true.
Proof.
  cbv zeta. split; [apply LKNone; auto|]. split; [|split; vm_compute; reflexivity].
  eexists. split; [left; reflexivity|]. apply (OLAlone _ _ _ [tf_wsh] []); [reflexivity|]. repeat constructor.
Qed.

(** For other lock times they are not: the finalizer of version 2 does not look at the lock time of the
    transaction, so that it does not satisfy a lock that only the fallback lock time satisfies. *)
Definition tf_fall : input := set_in_min_height None tf_wsh.
Definition tf_low : psbt :=
  Psbt (set_g_fallback_lock_time (Some 16) (p_global (ex_of 0 [tf_fall]))) [tf_fall] (p_outputs (ex_of 0 [tf_fall])).
Theorem C145_finalize_refuted : exists p lock i u r, bip370_lock_time p (Some lock) /\ sequences_given p /\ inputs_counted p
  /\ nth_error (p_inputs p) 0 = Some i /\ funds i u /\ (forall k, ~ p2tr_key (to_script u) k)
  /\ final_script_sig_and_witness (p_inputs p) i = Err IEMiniscript /\ build_final true (v0_form lock p) 0 = Ok r.
Proof.
  destruct (build_final true (v0_form 16 tf_low) 0) as [r| |] eqn:E; [|exfalso; revert E; vm_compute; discriminate..].
  exists tf_low, 16, tf_fall, (TxOut 5000 (program_script 0 (sha256 fx_after))), r.
  split; [apply (C18_lock_time tf_low); vm_compute; reflexivity|]. split; [repeat constructor; discriminate|].
  split; [reflexivity|]. split; [reflexivity|]. split; [left; reflexivity|]. split.
  { intros k Hk. assert (Q : is_p2tr (to_script (TxOut 5000 (program_script 0 (sha256 fx_after)))) = true) by (apply is_p2tr_iff; eauto).
    revert Q. vm_compute. discriminate. }
  split; [vm_compute; reflexivity|exact E].
Qed.
Print Assumptions C145_finalize_refuted.
