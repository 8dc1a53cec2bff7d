(** Facts about the finalizer. *)
From Verif Require Import Base OMap Consensus ConsensusFacts Ext Raw TapTree Serialize SerializeFacts MapCodec V2Global V2Input V2Output V2Psbt
  V2Roles SpecRoles V2RolesFacts Script V2Sign SpecSign V2SignFacts V2Finalize SpecFinalize.
Local Open Scope N_scope.

Section Facts.
Context `{X : Ext} `{C : Cfg} `{M : MsExt}.

(** ** One input *)

Lemma expect_funds {F} i u : funds i u -> expect_ok (F := F) (input_funding_utxo i) = Ok u.
Proof. intros H. apply funding_ok_iff in H. now rewrite H. Qed.
Lemma funds_unique i u u' : funds i u -> funds i u' -> u = u'.
Proof. rewrite <- !funding_ok_iff. congruence. Qed.

Lemma input_finalize_iff i ss w i' u : funds i u ->
  input_finalize i ss w = Ok i' <->
  (in_witness_utxo i <> None -> w <> [])
  /\ final_input ss (if is_some (in_witness_utxo i) then Some w else None) i i'.
Proof.
  intros Hu. unfold input_finalize. unfold input_has_funding_utxo. rewrite (proj2 (funding_ok_iff i u) Hu).
  cbn [is_ok]. rewrite orb_true_r. cbn [panic_unless bind]. split.
  - destruct (in_witness_utxo i) as [v|] eqn:E; cbn [is_some].
    + destruct w as [|x w]; cbn [is_empty fail_if bind]; [discriminate|]. intros H. inj H.
      split; [discriminate|]. split; cbn; auto 10.
    + intros H. inj H. split; [congruence|]. split; cbn; auto 10.
  - intros [Hw Hf]. assert (E : i' = Input (in_previous_txid i) (in_spent_output_index i) None None None
      (in_non_witness_utxo i) (in_witness_utxo i) [] None None None [] (Some ss) (if is_some (in_witness_utxo i) then Some w else None)
      [] [] [] [] None [] [] [] None None [] [] [] []).
    { destruct Hf. destruct i'; cbn in *. destruct fi_locks as (? & ? & ?), fi_ecdsa as (? & ? & ? & ? & ?),
        fi_preimages as (? & ? & ? & ?), fi_tap as (? & ? & ? & ? & ? & ?), fi_sp as (? & ?), fi_other as (? & ?). subst. reflexivity. }
    subst i'. destruct (in_witness_utxo i) as [v|] eqn:E; cbn [is_some].
    + destruct w as [|x w]; [destruct Hw; congruence|]. cbn [is_empty fail_if bind].
      unfold set_in_final_script_witness, set_in_final_script_sig. cbn. reflexivity.
    + unfold set_in_final_script_sig. cbn. reflexivity.
Qed.
Lemma input_finalize_err i ss w e u : funds i u ->
  input_finalize i ss w = Err e <-> in_witness_utxo i <> None /\ w = [] /\ e = FinEmptyWitness.
Proof.
  intros Hu. unfold input_finalize. unfold input_has_funding_utxo. rewrite (proj2 (funding_ok_iff i u) Hu).
  cbn [is_ok]. rewrite orb_true_r. cbn [panic_unless bind].
  destruct (in_witness_utxo i) as [v|]; cbn [is_some]; [destruct w; cbn [is_empty fail_if bind]|]; split; intros H; try discriminate.
  - injection H as <-. repeat split. discriminate.
  - destruct H as (_ & _ & ->). reflexivity.
  - destruct H as (_ & H & _). discriminate.
  - destruct H as (H & _). congruence.
Qed.
Lemma input_finalize_np i ss w u : funds i u -> input_finalize i ss w <> Panic.
Proof.
  intros Hu. unfold input_finalize. unfold input_has_funding_utxo. rewrite (proj2 (funding_ok_iff i u) Hu).
  cbn [is_ok]. rewrite orb_true_r. cbn [panic_unless bind]. destruct (is_some _); [destruct w|]; discriminate.
Qed.

Lemma new_desc_np c mk m : new_desc c mk m <> Panic.
Proof. unfold new_desc. destruct (ms_top_level c m); discriminate. Qed.
Lemma get_descriptor_np l i u : funds i u -> get_descriptor l i <> Panic.
Proof.
  intros Hu. unfold get_descriptor. rewrite (expect_funds i u Hu). cbn [bind].
  repeat match goal with |- context [if ?b then _ else _] => destruct b end; try discriminate.
  all: repeat match goal with
  | |- context [match ?o with _ => _ end] => destruct o
  | |- context [if ?b then _ else _] => destruct b
  | |- context [ms_parse ?c ?b] => destruct (ms_parse c b)
  end; cbn [ok_or bind]; try discriminate; try apply new_desc_np.
Qed.
Lemma construct_tap_np spk i : is_p2tr spk = true -> construct_tap_witness spk i <> Panic.
Proof.
  intros H. unfold construct_tap_witness. rewrite H. cbn [panic_unless bind].
  destruct (in_tap_key_sig i); [discriminate|]. destruct (tap_loop _ _ _ _); discriminate.
Qed.
Lemma final_np l i u : funds i u -> final_script_sig_and_witness l i <> Panic.
Proof.
  intros Hu. unfold final_script_sig_and_witness. rewrite (expect_funds i u Hu). cbn [bind].
  destruct (is_p2tr (to_script u)) eqn:E.
  - pose proof (construct_tap_np _ i E). destruct (construct_tap_witness _ _); cbn [bind]; congruence.
  - pose proof (get_descriptor_np l i u Hu). destruct (get_descriptor l i) as [d| |]; cbn [bind]; try congruence.
    destruct (desc_satisfaction _ _) as [[w ss]|]; cbn [ok_or bind]; discriminate.
Qed.
Lemma finalize_input_np l i u : funds i u -> finalize_input l i <> Panic.
Proof.
  intros Hu. unfold finalize_input. pose proof (final_np l i u Hu).
  destruct (final_script_sig_and_witness l i) as [[ss w]| |]; cbn [map_err bind]; try congruence.
  pose proof (input_finalize_np i ss w u Hu). destruct (input_finalize i ss w); cbn [map_err]; congruence.
Qed.

Lemma finalize_input_iff l i i' u : funds i u ->
  finalize_input l i = Ok i' <->
  exists ss w, final_script_sig_and_witness l i = Ok (ss, w) /\ (in_witness_utxo i <> None -> w <> [])
    /\ final_input ss (if is_some (in_witness_utxo i) then Some w else None) i i'.
Proof.
  intros Hu. unfold finalize_input. split.
  - intros H. apply bind_ok in H as ([ss w] & H1 & H2). apply map_err_ok in H1, H2. exists ss, w. split; [assumption|].
    now apply (input_finalize_iff i ss w i' u Hu).
  - intros (ss & w & H1 & H2). rewrite H1. cbn [map_err bind]. apply (input_finalize_iff i ss w i' u Hu) in H2. now rewrite H2.
Qed.

(** ** All inputs *)

Lemma finalize_inputs_ok l0 l : forall k l', finalize_inputs l0 k l = Ok l' <-> Forall2 (fun i i' => finalize_input l0 i = Ok i') l l'.
Proof.
  induction l as [|i l IH]; intros k l'; cbn [finalize_inputs].
  - split; [intros H; inj H; constructor|]. intros H. inversion H. reflexivity.
  - split.
    + intros H. apply bind_ok in H as (i' & H1 & H). apply bind_ok in H as (r & H2 & H). inj H. apply map_err_ok in H1.
      constructor; [assumption|]. now apply (IH (k + 1)).
    + intros H. inversion H as [|? ? ? ? H1 H2]; subst. rewrite H1. cbn [map_err bind]. apply (IH (k + 1)) in H2. now rewrite H2.
Qed.
Lemma finalize_inputs_err l0 l : forall k e, finalize_inputs l0 k l = Err e <->
  exists l1 i l2 e', l = l1 ++ i :: l2 /\ Forall (fun j => exists j', finalize_input l0 j = Ok j') l1
    /\ finalize_input l0 i = Err e' /\ e = FEInput (k + blen l1) e'.
Proof.
  induction l as [|i l IH]; intros k e; cbn [finalize_inputs].
  - split; [discriminate|]. intros (l1 & j & l2 & e' & H & _). destruct l1; discriminate.
  - destruct (finalize_input l0 i) as [i'|e1|] eqn:E; cbn [map_err bind].
    + split.
      * intros H. destruct (finalize_inputs l0 (k + 1) l) as [r|e2|] eqn:E2; cbn [bind] in H; try discriminate. injection H as <-.
        apply IH in E2 as (l1 & j & l2 & e' & -> & H1 & H2 & ->). exists (i :: l1), j, l2, e'. split; [reflexivity|].
        split; [constructor; eauto|]. split; [assumption|]. f_equal. unfold blen. cbn [length]. lia.
      * intros (l1 & j & l2 & e' & H & H1 & H2 & ->). destruct l1 as [|j1 l1]; cbn [app] in H.
        { injection H as -> ->. congruence. }
        injection H as -> ->. inversion H1; subst.
        assert (R : finalize_inputs l0 (k + 1) (l1 ++ j :: l2) = Err (FEInput (k + 1 + blen l1) e')).
        { apply IH. exists l1, j, l2, e'. auto. }
        rewrite R. cbn [bind]. f_equal. f_equal. unfold blen. cbn [length]. lia.
    + split.
      * intros H. injection H as <-. exists [], i, l, e1. split; [reflexivity|]. split; [constructor|]. split; [assumption|]. f_equal. unfold blen. cbn. lia.
      * intros (l1 & j & l2 & e' & H & H1 & H2 & ->). destruct l1 as [|j1 l1]; cbn [app] in H.
        { injection H as -> ->. rewrite E in H2. injection H2 as ->. f_equal. f_equal. unfold blen. cbn. lia. }
        injection H as -> ->. inversion H1 as [|? ? [j' Hj]]; subst. congruence.
    + split; [discriminate|]. intros (l1 & j & l2 & e' & H & H1 & H2 & ->). destruct l1 as [|j1 l1]; cbn [app] in H.
      { injection H as -> ->. congruence. }
      injection H as -> ->. inversion H1 as [|? ? [j' Hj]]; subst. congruence.
Qed.
Lemma finalize_inputs_np l0 l : forall k, Forall (fun i => exists u, funds i u) l -> finalize_inputs l0 k l <> Panic.
Proof.
  induction l as [|i l IH]; intros k H; cbn [finalize_inputs]; [discriminate|]. inversion H as [|? ? [u Hu] H']; subst.
  pose proof (finalize_input_np l0 i u Hu). destruct (finalize_input l0 i); cbn [map_err bind]; try congruence.
  specialize (IH (k + 1) H'). destruct (finalize_inputs l0 (k + 1) l); cbn [bind]; congruence.
Qed.

(** ** The interpreter *)

Lemma all_utxos_ok {E} l : forall us, all_utxos (E := E) l = Ok us <-> spends l us.
Proof.
  unfold spends. induction l as [|i l IH]; intros us; cbn [all_utxos].
  - split; [intros H; inj H; constructor|]. intros H. inversion H. reflexivity.
  - split.
    + intros H. apply bind_ok in H as (u & H1 & H). apply bind_ok in H as (r & H2 & H). inj H. constructor; [|now apply IH].
      apply funding_ok_iff. destruct (input_funding_utxo i); [|discriminate|discriminate]. now inj H1.
    + intros H. inversion H as [|? u ? us' Hu Hl]; subst. rewrite (expect_funds i u Hu). cbn [bind]. apply IH in Hl. now rewrite Hl.
Qed.

(** The interpreter's verdict on an input with its final fields. *)
Definition verdict (t : tx) (us : list txout) (k : N) (i : input) (r : interp) : Prop :=
  exists u ss w, funds i u /\ in_final_script_sig i = Some ss /\ in_final_script_witness i = Some w
    /\ ms_interpret (to_script u) ss w (match in_sequence i with Some s => s | None => 2 ^ 32 - 1 end) (input_lock_time i) t k us = r.
Fixpoint verdicts (t : tx) (us : list txout) (k : N) (l : list input) : Prop :=
  match l with [] => True | i :: l' => verdict t us k i IOk /\ verdicts t us (k + 1) l' end.

Lemma verdict_fun t us k i r r' : verdict t us k i r -> verdict t us k i r' -> r = r'.
Proof.
  intros (u & ss & w & H1 & H2 & H3 & H4) (u' & ss' & w' & H1' & H2' & H3' & H4').
  assert (u = u') by (eapply funds_unique; eauto). congruence.
Qed.
Lemma check_step t us k i l u : funds i u ->
  match in_final_script_sig i, in_final_script_witness i with
  | Some ss, Some w => exists r, verdict t us k i r /\
      interpreter_check_inputs t us k (i :: l) =
      match r with IOk => interpreter_check_inputs t us (k + 1) l | IConstructor => Err (CIConstructor k) | ISatisfaction => Err (CISatisfaction k) end
  | _, _ => interpreter_check_inputs t us k (i :: l) = Panic
  end.
Proof.
  intros Hu. cbn [interpreter_check_inputs]. destruct (in_final_script_witness i) as [w|] eqn:Ew; cbn [expect bind].
  2:{ destruct (in_final_script_sig i); reflexivity. }
  destruct (in_final_script_sig i) as [ss|] eqn:Es; cbn [expect bind]; [|reflexivity].
  unfold interpreter_check_input. rewrite (expect_funds i u Hu). cbn [bind]. eexists. split.
  - exists u, ss, w. split; [assumption|]. split; [assumption|]. split; [assumption|]. reflexivity.
  - replace (opt_default SEQ_MAX (in_sequence i)) with (match in_sequence i with Some s => s | None => 2 ^ 32 - 1 end) by (destruct (in_sequence i); reflexivity).
    destruct (ms_interpret _ _ _ _ _ _ _ _); reflexivity.
Qed.
Lemma check_inputs_ok_iff t us l : forall k, Forall (fun i => exists u, funds i u) l ->
  interpreter_check_inputs t us k l = Ok tt <-> verdicts t us k l.
Proof.
  induction l as [|i l IH]; intros k H; [cbn; tauto|]. inversion H as [|? ? [u Hu] H']; subst. specialize (IH (k + 1) H').
  cbn [verdicts]. rewrite <- IH. pose proof (check_step t us k i l u Hu) as S.
  destruct (in_final_script_sig i) as [ss|] eqn:Es, (in_final_script_witness i) as [w|] eqn:Ew.
  - destruct S as (r & Hr & ->). split.
    + destruct r; try discriminate. auto.
    + intros [Hv Hl]. assert (r = IOk) by (eapply verdict_fun; eauto). subst r. exact Hl.
  - rewrite S. split; [discriminate|]. intros [(? & ? & ? & ? & ? & ? & ?) _]. congruence.
  - rewrite S. split; [discriminate|]. intros [(? & ? & ? & ? & ? & ? & ?) _]. congruence.
  - rewrite S. split; [discriminate|]. intros [(? & ? & ? & ? & ? & ? & ?) _]. congruence.
Qed.
Lemma check_inputs_panic_iff t us l : forall k, Forall (fun i => exists u, funds i u) l ->
  interpreter_check_inputs t us k l = Panic <->
  exists l1 i l2, l = l1 ++ i :: l2 /\ verdicts t us k l1 /\ ~ finalized i.
Proof.
  induction l as [|i l IH]; intros k H.
  { cbn. split; [discriminate|]. intros (l1 & j & l2 & E & _). destruct l1; discriminate. }
  inversion H as [|? ? [u Hu] H']; subst. specialize (IH (k + 1) H'). pose proof (check_step t us k i l u Hu) as S.
  assert (D : finalized i \/ ~ finalized i).
  { unfold finalized. destruct (in_final_script_sig i), (in_final_script_witness i); [left; split; discriminate|right..]; intros [? ?]; congruence. }
  destruct D as [D|D].
  - pose proof D as [Ds Dw]. destruct (in_final_script_sig i) as [ss|] eqn:Es; [|congruence].
    destruct (in_final_script_witness i) as [w|] eqn:Ew; [|congruence]. destruct S as (r & Hr & ->). split.
    + destruct r; try discriminate. intros HP. apply IH in HP as (l1 & j & l2 & -> & Hl & Hj). exists (i :: l1), j, l2. cbn [verdicts app]. auto.
    + intros (l1 & j & l2 & E & Hl & Hj). destruct l1 as [|j1 l1]; cbn [app] in E; injection E as -> ->; [contradiction|].
      destruct Hl as [Hv Hl]. assert (r = IOk) by (eapply verdict_fun; eauto). subst r. apply IH. exists l1, j, l2. auto.
  - assert (R : interpreter_check_inputs t us k (i :: l) = Panic).
    { unfold finalized in D. destruct (in_final_script_sig i), (in_final_script_witness i); auto. destruct D. split; discriminate. }
    rewrite R. split; [intros _|reflexivity]. exists [], i, l. split; [reflexivity|]. split; [exact I|assumption].
Qed.

(** ** The whole *)

Lemma no_locks p : Forall (fun i => in_min_time i = None /\ in_min_height i = None) (p_inputs p) ->
  determine_lock_time p = Ok (fallback_lock p).
Proof.
  intros H. apply determine_ok_iff. apply LFallback. intros i Hi [N|N]; rewrite Forall_forall in H; destruct (H i Hi); congruence.
Qed.

Lemma all_funded_ok l : all_funded l = Ok tt <-> Forall (fun i => exists u, funds i u) l.
Proof.
  induction l as [|i l IH]; cbn [all_funded].
  - split; [constructor|reflexivity].
  - split.
    + intros H. apply bind_ok in H as (u & Hu & H). constructor; [exists u; now apply funding_ok_iff|now apply IH].
    + intros H. inversion H as [|? ? [u Hu] Hl]; subst. apply funding_ok_iff in Hu. rewrite Hu. cbn [bind]. now apply IH.
Qed.
Lemma finalizer_new_funded p q : finalizer_new p = Ok q -> q = p /\ Forall (fun i => exists u, funds i u) (p_inputs p).
Proof.
  intros H. unfold finalizer_new in H. apply bind_ok in H as ([] & H1 & H). apply bind_ok in H as (n & H2 & H). apply bind_ok in H as ([] & H3 & H).
  inj H. split; [reflexivity|]. apply map_err_ok in H1. now apply all_funded_ok.
Qed.

Lemma verdicts_nth t us l : forall k, verdicts t us k l <-> forall n i, nth_error l n = Some i -> verdict t us (k + N.of_nat n) i IOk.
Proof.
  induction l as [|i l IH]; intros k; cbn [verdicts].
  - split; [|trivial]. intros _ [|n] i H; discriminate.
  - rewrite IH. split.
    + intros [H1 H2] [|n] j H; cbn [nth_error] in H.
      * injection H as <-. replace (k + N.of_nat 0) with k by lia. assumption.
      * replace (k + N.of_nat (Datatypes.S n)) with (k + 1 + N.of_nat n) by lia. now apply H2.
    + intros H. split.
      * specialize (H O i eq_refl). now replace (k + N.of_nat 0) with k in H by lia.
      * intros n j Hj. specialize (H (Datatypes.S n) j Hj). now replace (k + N.of_nat (Datatypes.S n)) with (k + 1 + N.of_nat n) in H by lia.
Qed.
Lemma verdicts_finalized t us l : forall k, verdicts t us k l -> Forall finalized l.
Proof.
  induction l as [|i l IH]; intros k H; [constructor|]. destruct H as [(u & ss & w & _ & H1 & H2 & _) H]. constructor; [|now apply (IH (k + 1))].
  split; congruence.
Qed.
Lemma spends_funded l us : spends l us -> Forall (fun i => exists u, funds i u) l.
Proof. intros H. induction H; constructor; eauto. Qed.
Lemma funded_spends l : Forall (fun i => exists u, funds i u) l -> exists us, spends l us.
Proof. intros H. induction H as [|i l [u Hu] _ [us IH]]; [exists []; constructor|]. exists (u :: us). now constructor. Qed.
Lemma is_finalized_iff p : psbt_is_finalized p = true <-> Forall finalized (p_inputs p).
Proof.
  unfold psbt_is_finalized. rewrite forallb_forall, Forall_forall. split; intros H i Hi; apply finalized_spec; auto.
Qed.
Lemma is_finalized_dec p : Forall finalized (p_inputs p) \/ ~ Forall finalized (p_inputs p).
Proof. rewrite <- is_finalized_iff. destruct (psbt_is_finalized p); [left|right]; auto; discriminate. Qed.

Lemma interpreter_check_iff p : Forall (fun i => exists u, funds i u) (p_inputs p) ->
  interpreter_check p = Ok tt <->
  exists t us, unsigned_tx p = Ok t /\ spends (p_inputs p) us /\ verdicts t us 0 (p_inputs p).
Proof.
  intros Hf. unfold interpreter_check. split.
  - intros H. apply bind_ok in H as ([] & _ & H). apply bind_ok in H as (t & Ht & H). apply bind_ok in H as (us & Hus & H).
    apply map_err_ok in Ht, H. exists t, us. split; [assumption|]. split; [now apply (all_utxos_ok (E := checkerr))|].
    now apply check_inputs_ok_iff.
  - intros (t & us & Ht & Hus & Hv). pose proof (verdicts_finalized _ _ _ _ Hv) as Hfin. apply is_finalized_iff in Hfin. rewrite Hfin, orb_true_r, Ht.
    cbn [panic_unless map_err bind]. rewrite (proj2 (all_utxos_ok (E := checkerr) _ us) Hus). cbn [bind].
    now rewrite (proj2 (check_inputs_ok_iff t us _ 0 Hf) Hv).
Qed.

(** ** What finalizing does to the fields the transaction is made of *)

Definition fin_rel (l0 : list input) (i i' : input) : Prop := finalize_input l0 i = Ok i'.

Lemma fin_rel_funds l0 i i' u : funds i u -> fin_rel l0 i i' -> funds i' u.
Proof.
  intros Hu H. apply (finalize_input_iff l0 i i' u Hu) in H as (ss & w & _ & _ & F). unfold funds in *.
  rewrite (fi_witness_utxo _ _ _ _ F), (fi_non_witness_utxo _ _ _ _ F), (fi_index _ _ _ _ F). exact Hu.
Qed.
Lemma fin_rel_locks l0 i i' u : funds i u -> fin_rel l0 i i' -> in_sequence i' = None /\ in_min_time i' = None /\ in_min_height i' = None.
Proof. intros Hu H. apply (finalize_input_iff l0 i i' u Hu) in H as (ss & w & _ & _ & F). exact (fi_locks _ _ _ _ F). Qed.
Lemma fin_rel_outpoint l0 i i' u : funds i u -> fin_rel l0 i i' -> outpoint_of i' = outpoint_of i.
Proof.
  intros Hu H. apply (finalize_input_iff l0 i i' u Hu) in H as (ss & w & _ & _ & F). unfold outpoint_of.
  now rewrite (fi_txid _ _ _ _ F), (fi_index _ _ _ _ F).
Qed.

Lemma fin_all_funded l0 l l' : Forall (fun i => exists u, funds i u) l -> Forall2 (fin_rel l0) l l' -> Forall (fun i => exists u, funds i u) l'.
Proof.
  intros H H2. induction H2 as [|i i' l l' Hi Hl IH]; [constructor|]. inversion H as [|? ? [u Hu] H']; subst.
  constructor; [|auto]. exists u. eapply fin_rel_funds; eauto.
Qed.
Lemma fin_all_spends l0 l l' us : Forall2 (fin_rel l0) l l' -> spends l us -> spends l' us.
Proof.
  intros H2. revert us. induction H2 as [|i i' l l' Hi Hl IH]; intros us H; inversion H; subst; constructor; [eapply fin_rel_funds; eauto|]. now apply IH.
Qed.
Lemma fin_all_locks l0 l l' : Forall (fun i => exists u, funds i u) l -> Forall2 (fin_rel l0) l l' ->
  Forall (fun i => in_sequence i = None /\ in_min_time i = None /\ in_min_height i = None) l'.
Proof.
  intros H H2. induction H2 as [|i i' l l' Hi Hl IH]; [constructor|]. inversion H as [|? ? [u Hu] H']; subst.
  constructor; [|auto]. eapply fin_rel_locks; eauto.
Qed.
Lemma fin_all_txin l0 l l' : Forall (fun i => exists u, funds i u) l -> Forall2 (fin_rel l0) l l' ->
  map input_unsigned_tx_in l' = map (fun i => TxIn (ti_txid i) (ti_vout i) (ti_script_sig i) 0 (ti_witness i)) (map input_unsigned_tx_in l).
Proof.
  intros H H2. induction H2 as [|i i' l l' Hi Hl IH]; [reflexivity|]. inversion H as [|? ? [u Hu] H']; subst. cbn [map]. rewrite IH by assumption.
  f_equal. unfold input_unsigned_tx_in. cbn [ti_txid ti_vout ti_script_sig ti_witness]. destruct (fin_rel_locks _ _ _ _ Hu Hi) as (-> & _ & _).
  pose proof (fin_rel_outpoint _ _ _ _ Hu Hi) as Ho. unfold outpoint_of in Ho. injection Ho as -> ->. reflexivity.
Qed.

Lemma fin_unsigned p q t : Forall (fun i => exists u, funds i u) (p_inputs p) ->
  p_global q = p_global p -> p_outputs q = p_outputs p -> Forall2 (fin_rel (p_inputs p)) (p_inputs p) (p_inputs q) ->
  unsigned_tx p = Ok t -> unsigned_tx q = Ok (relocked 0 (fallback_lock p) t).
Proof.
  intros Hf Hg Ho Hi Ht. pose proof (fin_all_locks _ _ _ Hf Hi) as Hl.
  assert (D : determine_lock_time q = Ok (fallback_lock q)).
  { apply no_locks. eapply Forall_impl; [|exact Hl]. cbn. tauto. }
  rewrite (unsigned_tx_ok _ _ D). unfold unsigned_tx in Ht. destruct (determine_lock_time p) as [n| |]; cbn [bind] in Ht; try discriminate.
  inj Ht. unfold relocked. cbn [tx_version tx_lock_time tx_input tx_output]. rewrite Hg, Ho, (fin_all_txin _ _ _ Hf Hi).
  unfold fallback_lock. now rewrite Hg.
Qed.

Lemma finalize_ok_iff p q : Forall (fun i => exists u, funds i u) (p_inputs p) ->
  finalizer_finalize p = Ok q <->
  p_global q = p_global p /\ p_outputs q = p_outputs p /\ Forall2 (fin_rel (p_inputs p)) (p_inputs p) (p_inputs q)
  /\ exists t us, unsigned_tx q = Ok t /\ spends (p_inputs q) us /\ verdicts t us 0 (p_inputs q).
Proof.
  intros Hf. unfold finalizer_finalize. split.
  - intros H. apply bind_ok in H as (l & Hl & H). apply bind_ok in H as ([] & Hc & H). inj H. cbn [p_global p_outputs p_inputs].
    apply finalize_inputs_ok in Hl. apply map_err_ok in Hc. split; [reflexivity|]. split; [reflexivity|]. split; [assumption|].
    apply interpreter_check_iff in Hc; [exact Hc|]. cbn [p_inputs]. eapply fin_all_funded; eauto.
  - intros (Hg & Ho & Hi & Hv). rewrite (proj2 (finalize_inputs_ok (p_inputs p) (p_inputs p) 0 (p_inputs q)) Hi). cbn [bind].
    assert (E : Psbt (p_global p) (p_inputs q) (p_outputs p) = q) by (destruct q; cbn in *; congruence). rewrite E.
    apply interpreter_check_iff in Hv; [|eapply fin_all_funded; eauto]. rewrite Hv. reflexivity.
Qed.

Lemma finalize_panic_iff p : Forall (fun i => exists u, funds i u) (p_inputs p) -> (exists n, determine_lock_time p = Ok n) ->
  finalizer_finalize p = Panic <->
  exists q t us, p_global q = p_global p /\ p_outputs q = p_outputs p /\ Forall2 (fin_rel (p_inputs p)) (p_inputs p) (p_inputs q)
  /\ unsigned_tx q = Ok t /\ spends (p_inputs q) us
  /\ exists l1 i l2, p_inputs q = l1 ++ i :: l2 /\ ~ finalized i /\ (debug_assertions = false -> verdicts t us 0 l1).
Proof.
  intros Hf [n Hn]. unfold finalizer_finalize. pose proof (finalize_inputs_np (p_inputs p) (p_inputs p) 0 Hf) as Hnp.
  assert (Ht : exists t, unsigned_tx p = Ok t) by (rewrite (unsigned_tx_ok _ _ Hn); eauto). destruct Ht as [t0 Ht].
  split.
  - intros H. destruct (finalize_inputs (p_inputs p) 0 (p_inputs p)) as [l|e|] eqn:El; cbn [bind] in H; try congruence.
    apply finalize_inputs_ok in El. set (q := Psbt (p_global p) l (p_outputs p)) in *.
    pose proof (fin_unsigned p q t0 Hf eq_refl eq_refl El Ht) as Hq. destruct (funded_spends _ Hf) as [us Hus].
    exists q, (relocked 0 (fallback_lock p) t0), us. split; [reflexivity|]. split; [reflexivity|]. split; [exact El|]. split; [exact Hq|].
    pose proof (fin_all_spends _ _ _ us El Hus) as Hus'. split; [exact Hus'|].
    assert (Hc : interpreter_check q = Panic). { destruct (interpreter_check q) as [[]| |]; cbn [map_err bind] in H; congruence. }
    pose proof (fin_all_funded _ _ _ Hf El) as Hfq.
    unfold interpreter_check in Hc. destruct (is_finalized_dec q) as [F|F].
    + apply is_finalized_iff in F. rewrite F, orb_true_r in Hc. cbn [panic_unless bind] in Hc. rewrite Hq in Hc. cbn [map_err bind] in Hc.
      change (p_inputs q) with l in Hc. rewrite (proj2 (all_utxos_ok (E := checkerr) _ us) Hus') in Hc. cbn [bind] in Hc.
      assert (Hc' : interpreter_check_inputs (relocked 0 (fallback_lock p) t0) us 0 l = Panic) by (destruct (interpreter_check_inputs _ _ _ _); cbn in Hc; congruence).
      apply (check_inputs_panic_iff _ _ _ 0 Hfq) in Hc' as (l1 & i & l2 & E & Hv & Hi). exists l1, i, l2. auto.
    + rewrite <- is_finalized_iff in F. destruct (psbt_is_finalized q) eqn:Ef; [congruence|]. clear F. rewrite orb_false_r in Hc.
      destruct debug_assertions; cbn [negb panic_unless bind] in Hc.
      * unfold psbt_is_finalized in Ef. assert (Ex : existsb (fun i => negb (input_is_finalized i)) l = true).
        { clear -Ef. change (p_inputs q) with l in Ef. induction l as [|i l IH]; cbn in *; [discriminate|]. destruct (input_is_finalized i); cbn in *; auto. }
        apply existsb_exists in Ex as (i & Hi & Hn'). apply in_split in Hi as (l1 & l2 & E). exists l1, i, l2. split; [exact E|].
        split; [|discriminate]. intros Hfi. apply finalized_spec in Hfi. rewrite Hfi in Hn'. discriminate.
      * rewrite Hq in Hc. cbn [map_err bind] in Hc. change (p_inputs q) with l in Hc.
        rewrite (proj2 (all_utxos_ok (E := checkerr) _ us) Hus') in Hc. cbn [bind] in Hc.
        assert (Hc' : interpreter_check_inputs (relocked 0 (fallback_lock p) t0) us 0 l = Panic) by (destruct (interpreter_check_inputs _ _ _ _); cbn in Hc; congruence).
        apply (check_inputs_panic_iff _ _ _ 0 Hfq) in Hc' as (l1 & i & l2 & E & Hv & Hi). exists l1, i, l2. auto.
  - intros (q & t & us & Hg & Ho & Hi & Hq & Hus & l1 & i & l2 & E & Hn' & Hv).
    rewrite (proj2 (finalize_inputs_ok (p_inputs p) (p_inputs p) 0 (p_inputs q)) Hi). cbn [bind].
    assert (Eq : Psbt (p_global p) (p_inputs q) (p_outputs p) = q) by (destruct q; cbn in *; congruence). rewrite Eq.
    assert (Hc : interpreter_check q = Panic).
    { unfold interpreter_check. assert (Ef : psbt_is_finalized q = false).
      { destruct (psbt_is_finalized q) eqn:Ef; auto. apply is_finalized_iff in Ef. rewrite E in Ef. apply Forall_app in Ef as [_ Ef]. inversion Ef; subst. contradiction. }
      rewrite Ef, orb_false_r. destruct debug_assertions; cbn [negb panic_unless bind]; [reflexivity|]. rewrite Hq. cbn [map_err bind].
      rewrite (proj2 (all_utxos_ok (E := checkerr) _ us) Hus). cbn [bind].
      rewrite (proj2 (check_inputs_panic_iff t us (p_inputs q) 0 (fin_all_funded _ _ _ Hf Hi))); [reflexivity|]. exists l1, i, l2. auto. }
    rewrite Hc. reflexivity.
Qed.

End Facts.
