(** Facts about the v0 finalizer. *)
From Coq Require Import Sorted.
From Verif Require Import Base OMap Consensus ConsensusFacts Ext Raw TapTree Serialize SerializeFacts MapCodec V2Psbt V2Roles V2RolesFacts
  Script SighashType V2Sign SpecSign V2SignFacts V2Finalize SpecFinalize V0Error V0Input V0Output V0Psbt SpecExtract0 V0ExtractFacts
  V0Sign SpecSign0 V0SignFacts V0Finalize SpecFinalize0.
Local Open Scope N_scope.

(** ** Utxos *)

Lemma get_utxo_spec p n s : spend_at p n s ->
  match get_utxo p n with
  | Ok u => funds0 s u
  | Err e => e = J0MissingUtxo /\ no_utxo s
  | Panic => vout_out_of_bounds s
  end.
Proof.
  destruct s as [t i]. intros H. apply spend_at_iff in H as [Ht Hi]. unfold get_utxo. rewrite !nth_N_nth, Ht, Hi. cbn [expect bind].
  destruct (i0_witness_utxo i) as [u|] eqn:Ew; [left; assumption|]. destruct (i0_non_witness_utxo i) as [prev|] eqn:En; [|split; [reflexivity|split; assumption]].
  rewrite nth_N_nth. destruct (nth_error (tx_output prev) (N.to_nat (ti_vout t))) as [u|] eqn:Eu; cbn [expect].
  - right. split; [assumption|]. exists prev. auto.
  - split; [assumption|]. exists prev. split; [assumption|]. apply nth_error_None in Eu. cbn [fst]. lia.
Qed.
Lemma get_utxo_ok p n s u : spend_at p n s -> (get_utxo p n = Ok u <-> funds0 s u).
Proof.
  intros Hs. pose proof (get_utxo_spec p n s Hs) as H. destruct (get_utxo p n) as [v| |]; split; intros E.
  - now inj E.
  - f_equal. eapply funds0_fun; eauto.
  - discriminate.
  - destruct H as [_ [H1 H2]], E as [E|(_ & t & E & _)]; congruence.
  - discriminate.
  - destruct H as (H1 & t & H2 & H3), E as [E|(_ & t' & E & E')]; [congruence|]. rewrite H2 in E. injection E as <-.
    assert (Q : nth_error (tx_output t) (N.to_nat (ti_vout (fst s))) <> None) by congruence. apply nth_error_Some in Q. lia.
Qed.
Lemma get_utxo_panic p n s : spend_at p n s -> (get_utxo p n = Panic <-> vout_out_of_bounds s).
Proof.
  intros Hs. pose proof (get_utxo_spec p n s Hs) as H. split; [intros E; now rewrite E in H|]. intros O. pose proof O as (Hw & t & Ht & Hv).
  destruct (get_utxo p n) as [u| |]; [|destruct H as [_ [_ H]]; congruence|reflexivity].
  destruct H as [H|(_ & t' & Ht' & Hn)]; [congruence|]. assert (Q : nth_error (tx_output t') (N.to_nat (ti_vout (fst s))) <> None) by congruence.
  apply nth_error_Some in Q. replace t' with t in Q by congruence. lia.
Qed.

Lemma spend_of p n : one_map_per_input p -> n < blen (p0_inputs p) -> exists s, spend_at p n s.
Proof. unfold one_map_per_input, blen. intros H Hn. apply spend_at_ex; unfold blen; lia. Qed.

Lemma prevouts_from p : one_map_per_input p -> forall m k, (k + m <= length (p0_inputs p))%nat ->
  match prevouts_loop p (map N.of_nat (seq k m)) with
  | Ok us => length us = m /\ forall j u, nth_error us j = Some u -> exists s, spend_at p (N.of_nat (k + j)) s /\ funds0 s u
  | Err e => exists j s, N.of_nat k <= j /\ e = M0Input J0MissingUtxo j /\ spend_at p j s /\ no_utxo s
               /\ forall j' s', N.of_nat k <= j' < j -> spend_at p j' s' -> exists u, funds0 s' u
  | Panic => exists j s, N.of_nat k <= j /\ spend_at p j s /\ vout_out_of_bounds s
               /\ forall j' s', N.of_nat k <= j' < j -> spend_at p j' s' -> exists u, funds0 s' u
  end.
Proof.
  intros Hone. induction m as [|m IH]; intros k Hk; cbn [seq map prevouts_loop].
  - split; [reflexivity|]. intros [|j] u; discriminate.
  - destruct (spend_of p (N.of_nat k) Hone) as [s Hs]; [unfold blen; lia|]. pose proof (get_utxo_spec p _ s Hs) as Hu.
    destruct (get_utxo p (N.of_nat k)) as [u|e|]; cbn [map_err bind].
    + specialize (IH (Datatypes.S k) ltac:(lia)). destruct (prevouts_loop p _) as [us|e|]; cbn [bind].
      * destruct IH as [Hl IH]. split; [cbn; lia|]. intros [|j] v; cbn [nth_error].
        -- intros [= <-]. exists s. now replace (k + 0)%nat with k by lia.
        -- intros Hv. destruct (IH j v Hv) as (s' & Hs' & Hf). exists s'. now replace (k + Datatypes.S j)%nat with (Datatypes.S k + j)%nat by lia.
      * destruct IH as (j & s' & Hj & -> & Hs' & Hn & Hb). exists j, s'. split; [lia|]. split; [reflexivity|]. split; [assumption|]. split; [assumption|].
        intros j' s2 Hj' Hs2. destruct (N.eq_dec j' (N.of_nat k)) as [->|Hne].
        -- rewrite (spend_at_fun _ _ _ _ Hs2 Hs). eauto.
        -- apply (Hb j' s2); [lia|assumption].
      * destruct IH as (j & s' & Hj & Hs' & Hn & Hb). exists j, s'. split; [lia|]. split; [assumption|]. split; [assumption|].
        intros j' s2 Hj' Hs2. destruct (N.eq_dec j' (N.of_nat k)) as [->|Hne].
        -- rewrite (spend_at_fun _ _ _ _ Hs2 Hs). eauto.
        -- apply (Hb j' s2); [lia|assumption].
    + destruct Hu as [-> Hn]. exists (N.of_nat k), s. split; [lia|]. split; [reflexivity|]. split; [assumption|]. split; [assumption|]. intros; lia.
    + exists (N.of_nat k), s. split; [lia|]. split; [assumption|]. split; [assumption|]. intros; lia.
Qed.
Lemma prevouts_spec p : one_map_per_input p ->
  match psbt0_prevouts p with
  | Ok us => spent_outputs p us
  | Err e => exists k, first_unknown p k /\ e = M0Input J0MissingUtxo k
  | Panic => Exists vout_out_of_bounds (spends p)
  end.
Proof.
  intros Hone. pose proof (prevouts_from p Hone (length (p0_inputs p)) 0 ltac:(lia)) as H. unfold psbt0_prevouts, input_indices0.
  destruct (prevouts_loop p _) as [us|e|].
  - destruct H as [Hl H]. unfold spent_outputs. apply F2_of_nth; [rewrite spends_length by assumption; congruence|].
    intros n s u Hs Hu. destruct (H n u Hu) as (s' & Hs' & Hf). unfold spend_at in Hs'. rewrite Nat2N.id in Hs'. cbn [Nat.add] in Hs'. congruence.
  - destruct H as (j & s & _ & -> & Hs & Hn & Hb). exists j. split; [|reflexivity]. split; [eauto|]. intros j' s' Hj. apply Hb. lia.
  - destruct H as (j & s & _ & Hs & Ho & _). apply Exists_exists. exists s. split; [|assumption]. apply spend_at_in. eauto.
Qed.

Lemma prevouts_panic p : one_map_per_input p -> psbt0_prevouts p = Panic ->
  exists k s, spend_at p k s /\ vout_out_of_bounds s /\ forall j s', j < k -> spend_at p j s' -> exists u, funds0 s' u.
Proof.
  intros Hone E. pose proof (prevouts_from p Hone (length (p0_inputs p)) 0 ltac:(lia)) as H. unfold psbt0_prevouts, input_indices0 in E. rewrite E in H.
  destruct H as (j & s & _ & H1 & H2 & H3). exists j, s. split; [assumption|]. split; [assumption|]. intros j' s' Hj. apply H3. lia.
Qed.

Lemma spent_outputs_fun p us vs : spent_outputs p us -> spent_outputs p vs -> us = vs.
Proof. apply funds0_all_fun. Qed.
Lemma spent_at p us n s : spent_outputs p us -> spend_at p n s -> exists u, nth_error us (N.to_nat n) = Some u /\ funds0 s u.
Proof.
  intros H. unfold spend_at. generalize (N.to_nat n). unfold spent_outputs in H. induction H as [|a u l l' Hf _ IH]; intros [|k]; cbn [nth_error]; try discriminate.
  - intros [= <-]. eauto.
  - apply IH.
Qed.
Lemma unknown_spent p us k : first_unknown p k -> ~ spent_outputs p us.
Proof.
  intros [(s & Hs & H1 & H2) _] Hu. destruct (spent_at p us k s Hu Hs) as (u & _ & [Hf|(_ & t & Hf & _)]); congruence.
Qed.
Lemma first_unknown_fun p j k : first_unknown p j -> first_unknown p k -> j = k.
Proof.
  assert (Q : forall a b, first_unknown p a -> first_unknown p b -> ~ a < b).
  { intros a b [(s & Hs & H1 & H2) _] [_ Hb] Hlt. destruct (Hb a s Hlt Hs) as (u & [Hf|(_ & t & Hf & _)]); congruence. }
  intros Hj Hk. pose proof (Q _ _ Hj Hk). pose proof (Q _ _ Hk Hj). lia.
Qed.
Lemma oob_spent p us : Exists vout_out_of_bounds (spends p) -> ~ spent_outputs p us.
Proof.
  intros H Hu. apply Exists_exists in H as (s & Hin & Ho). apply spend_at_in in Hin as (n & Hs).
  destruct (spent_at p us n s Hu Hs) as (u & _ & Hf). destruct Ho as (Hw & t & Ht & Hv), Hf as [Hf|(_ & t' & Ht' & Hf)]; [congruence|].
  assert (Q : nth_error (tx_output t') (N.to_nat (ti_vout (fst s))) <> None) by congruence. apply nth_error_Some in Q. replace t' with t in Q by congruence. lia.
Qed.

Section Facts.
Context `{X : Ext} `{M : MsExt} `{NM : !MsNmExt M}.

(** ** One input *)

Lemma verdict_fun p n w ss v v' : verdict0 p n w ss v -> verdict0 p n w ss v' -> v = v'.
Proof.
  intros (s & u & us & Hs & Hf & Hu & <-) (s' & u' & us' & Hs' & Hf' & Hu' & <-). rewrite (spend_at_fun _ _ _ _ Hs Hs') in *.
  now rewrite (funds0_fun _ _ _ Hf Hf'), (spent_outputs_fun _ _ _ Hu Hu').
Qed.
Lemma verdict_ex p n w ss s us : spend_at p n s -> spent_outputs p us -> exists v, verdict0 p n w ss v.
Proof. intros Hs Hu. destruct (spent_at p us n s Hu Hs) as (u & _ & Hf). eexists. exists s, u, us. auto. Qed.

Lemma final_input0_iff w ss i i' : final_input0 w ss i i' <-> i' = finalized_input0 i w ss.
Proof.
  split.
  - intros H. destruct H. destruct i'. cbn in *. destruct fi0_ecdsa as (? & ? & ? & ? & ?), fi0_preimages as (? & ? & ? & ?),
      fi0_tap as (? & ? & ? & ? & ? & ?), fi0_other as (? & ?). subst. destruct w, ss; reflexivity.
  - intros ->. destruct w, ss; split; cbn; auto 10.
Qed.

Lemma interp_check_spec p n s us w ss : spend_at p n s -> spent_outputs p us ->
  match interpreter_inp_check p n us w ss with
  | Ok _ => accepted p n w ss
  | Err e => e = M0Input J0Interpreter n /\ exists v, verdict0 p n w ss v /\ v <> IOk
  | Panic => False
  end.
Proof.
  intros Hs Hu. destruct (spent_at p us n s Hu Hs) as (u & _ & Hf). unfold interpreter_inp_check, get_scriptpubkey.
  rewrite (proj2 (get_utxo_ok p n s u Hs) Hf). cbn [bind map_err]. destruct s as [t i]. pose proof (proj1 (spend_at_iff _ _ _ _) Hs) as [Ht _].
  rewrite nth_N_nth, Ht. cbn [expect bind].
  destruct (ms_interpret _ _ _ _ _ _ _ _) eqn:E.
  - exists (t, i), u, us. auto.
  - split; [reflexivity|]. eexists. split; [exists (t, i), u, us; split; [exact Hs|]; split; [exact Hf|]; split; [exact Hu|]; exact E|discriminate].
  - split; [reflexivity|]. eexists. split; [exists (t, i), u, us; split; [exact Hs|]; split; [exact Hf|]; split; [exact Hu|]; exact E|discriminate].
Qed.

Lemma get_descriptor0_np p n s : spend_at p n s -> ~ vout_out_of_bounds s -> get_descriptor0 p n <> Panic.
Proof.
  intros Hs Ho H. destruct s as [t i]. pose proof (proj1 (spend_at_iff _ _ _ _) Hs) as [_ Hi]. pose proof (get_utxo_panic p n _ Hs) as Hp.
  unfold get_descriptor0, get_scriptpubkey in H. destruct (get_utxo p n) as [u| |]; cbn [bind] in H; [|discriminate|tauto].
  rewrite nth_N_nth, Hi in H. cbn [expect bind] in H. unfold new_desc0, ok_or in H.
  repeat match type of H with
  | (if ?b then _ else _) = _ => destruct b
  | match ?x with _ => _ end = _ => destruct x
  | bind ?r _ = _ => destruct r eqn:?; cbn [bind] in H
  end; try discriminate; match goal with E : match ?x with _ => _ end = Panic |- _ => destruct x; discriminate end.
Qed.
Lemma ok_or_np {E A} (o : option A) (e : E) : ok_or o e <> Panic.
Proof. destruct o; discriminate. Qed.

Lemma build_final_panic mall p n s : spend_at p n s -> (build_final mall p n = Panic <-> vout_out_of_bounds s).
Proof.
  intros Hs. pose proof (get_utxo_panic p n s Hs) as Hp. destruct s as [t i]. pose proof (proj1 (spend_at_iff _ _ _ _) Hs) as [Ht Hi].
  pose proof (get_descriptor0_np p n _ Hs) as Hd.
  unfold build_final, get_scriptpubkey. destruct (get_utxo p n) as [u|e|] eqn:Eu; cbn [bind].
  - rewrite !nth_N_nth, Ht, Hi. cbn [expect bind]. split; [intros H; exfalso|intros H; apply Hp in H; discriminate].
    assert (Ho : ~ vout_out_of_bounds (t, i)) by (intros O; apply Hp in O; discriminate). specialize (Hd Ho).
    destruct (is_p2tr (to_script u)) eqn:Et.
    + unfold construct_tap_witness0 in H. rewrite Et in H. cbn [panic_unless bind] in H. destruct (sat_tap_key _); [discriminate|].
      destruct (tap_loop0 _ _ _ _ _); discriminate.
    + destruct (get_descriptor0 p n) as [d| |]; cbn [bind] in H; [|discriminate|congruence]. now apply ok_or_np in H.
  - split; [discriminate|]. intros H. apply Hp in H. discriminate.
  - tauto.
Qed.

Lemma finalize_input0_spec mall p n s : one_map_per_input p -> spend_at p n s ->
  match finalize_input0 mall p n with
  | Ok p' => exists w ss, built mall p n w ss /\ accepted p n w ss
               /\ p' = set_p0_inputs (set_nth (N.to_nat n) (finalized_input0 (snd s) w ss) (p0_inputs p)) p
  | Err e => fails0 mall p n e
  | Panic => Exists vout_out_of_bounds (spends p)
  end.
Proof.
  intros Hone Hs. unfold finalize_input0, finalize_input_helper. pose proof (build_final_panic mall p n s Hs) as Hp.
  destruct (build_final mall p n) as [[w ss]|e|] eqn:Eb; cbn [map_err bind].
  - pose proof (prevouts_spec p Hone) as Hv. destruct (psbt0_prevouts p) as [us|e|]; cbn [bind].
    + pose proof (interp_check_spec p n s us w ss Hs Hv) as Hi. destruct (interpreter_inp_check p n us w ss) as [[]|e|]; cbn [bind]; [| |contradiction].
      * destruct s as [t i]. pose proof (proj1 (spend_at_iff _ _ _ _) Hs) as [_ Hn]. rewrite nth_N_nth, Hn. cbn [expect bind]. exists w, ss. auto.
      * destruct Hi as (-> & v & H1 & H2). now apply (F0Interpreter mall p n w ss v).
    + destruct Hv as (k & Hk & ->). now apply (F0Utxo mall p n w ss k).
    + assumption.
  - now apply F0Build.
  - apply Exists_exists. exists s. split; [apply spend_at_in; eauto|]. now apply Hp.
Qed.

Lemma fails_not_done mall p n e : fails0 mall p n e -> ~ finalizes0 mall p n.
Proof.
  intros H (w & ss & Hb & Ha). unfold built in Hb. destruct H as [e H|w' ss' k H Hk|w' ss' v H Hv Hne].
  - unfold not_built in H. congruence.
  - destruct Ha as (s & u & us & _ & _ & Hu & _). now apply (unknown_spent p us k).
  - unfold built in H. rewrite Hb in H. injection H as <- <-. apply Hne. eapply verdict_fun; eauto.
Qed.
Lemma fails_fun mall p n e e' : fails0 mall p n e -> fails0 mall p n e' -> e = e'.
Proof.
  intros [x H|w ss k H Hk|w ss v H Hv Hne] [x' H'|w' ss' k' H' Hk'|w' ss' v' H' Hv' Hne']; unfold built, not_built in *; try congruence.
  - now rewrite (first_unknown_fun p k k' Hk Hk').
  - destruct Hv' as (s & u & us & _ & _ & Hu & _). now apply (unknown_spent p us k) in Hu.
  - destruct Hv as (s & u & us & _ & _ & Hu & _). now apply (unknown_spent p us k') in Hu.
Qed.
Lemma fails_in_bounds mall p n e s : spend_at p n s -> fails0 mall p n e -> ~ vout_out_of_bounds s.
Proof. intros Hs H Ho. apply (build_final_panic mall p n s Hs) in Ho. destruct H; unfold built, not_built in *; congruence. Qed.
Lemma built_in_bounds mall p n w ss s : spend_at p n s -> built mall p n w ss -> ~ vout_out_of_bounds s.
Proof. intros Hs H Ho. apply (build_final_panic mall p n s Hs) in Ho. unfold built in *; congruence. Qed.

(** ** PSBTs with the same transaction and the same utxos *)

Definition same_utxos (i j : input0) : Prop := i0_witness_utxo i = i0_witness_utxo j /\ i0_non_witness_utxo i = i0_non_witness_utxo j.
Definition same_funding (p q : psbt0) : Prop :=
  p0_unsigned_tx p = p0_unsigned_tx q /\ Forall2 same_utxos (p0_inputs p) (p0_inputs q).
Lemma same_utxos_funds t i j u : same_utxos i j -> (funds0 (t, i) u <-> funds0 (t, j) u).
Proof. intros [H1 H2]. unfold funds0. cbn [fst snd]. now rewrite H1, H2. Qed.
Lemma same_utxos_oob t i j : same_utxos i j -> (vout_out_of_bounds (t, i) <-> vout_out_of_bounds (t, j)).
Proof. intros [H1 H2]. unfold vout_out_of_bounds. cbn [fst snd]. now rewrite H1, H2. Qed.
Lemma same_utxos_sym i j : same_utxos i j -> same_utxos j i.
Proof. intros [H1 H2]. split; congruence. Qed.
Lemma same_funding_sym p q : same_funding p q -> same_funding q p.
Proof. intros [H1 H2]. split; [congruence|]. induction H2; constructor; auto. now apply same_utxos_sym. Qed.
Lemma F2_length {A B} (R : A -> B -> Prop) l l' : Forall2 R l l' -> length l = length l'.
Proof. induction 1; cbn; congruence. Qed.
Lemma F2_nth_l {A B} (R : A -> B -> Prop) l l' : Forall2 R l l' -> forall n a, nth_error l n = Some a -> exists b, nth_error l' n = Some b /\ R a b.
Proof. induction 1; intros [|n] c; cbn; try discriminate; [intros [= <-]; eauto|apply IHForall2]. Qed.
Lemma same_spend p q n s : same_funding p q -> spend_at p n s -> exists i, spend_at q n (fst s, i) /\ same_utxos (snd s) i.
Proof.
  intros [H1 H2]. destruct s as [t i]. intros H. apply spend_at_iff in H as [Ht Hi].
  destruct (F2_nth_l _ _ _ H2 _ _ Hi) as (j & Hj & Hsame). exists j. split; [|assumption]. apply spend_at_iff. rewrite <- H1. auto.
Qed.
Lemma same_spent p q us : same_funding p q -> spent_outputs p us -> spent_outputs q us.
Proof.
  intros [H1 H2]. unfold spent_outputs, spends. rewrite <- H1. generalize (tx_input (p0_unsigned_tx p)). clear H1. revert us.
  induction H2 as [|i j l l' Hs _ IH]; intros us [|t ts]; cbn [combine]; try (intros H; exact H).
  intros H. inversion H; subst. constructor; [now apply (same_utxos_funds t i j)|]. now apply IH.
Qed.
Lemma same_oob p q : same_funding p q -> Exists vout_out_of_bounds (spends p) -> Exists vout_out_of_bounds (spends q).
Proof.
  intros Hsame H. apply Exists_exists in H as ([t i] & Hin & Ho). apply spend_at_in in Hin as (n & Hs).
  destruct (same_spend p q n _ Hsame Hs) as (j & Hj & Hu). apply Exists_exists. exists (t, j). split; [apply spend_at_in; eauto|].
  now apply (same_utxos_oob t i j).
Qed.
Lemma same_verdict p q n w ss v : same_funding p q -> verdict0 p n w ss v -> verdict0 q n w ss v.
Proof.
  intros Hsame (s & u & us & Hs & Hf & Hu & Hi). destruct (same_spend p q n s Hsame Hs) as (j & Hj & Hsu).
  exists (fst s, j), u, us. split; [assumption|]. split; [apply (same_utxos_funds (fst s) (snd s) j); [assumption|now destruct s]|].
  split; [now apply (same_spent p q)|]. cbn [fst]. now rewrite <- (proj1 Hsame).
Qed.

(** ** All inputs *)

Lemma set_p0_inputs_same p : set_p0_inputs (p0_inputs p) p = p.
Proof. now destruct p. Qed.
Lemma set_p0_inputs_twice l l' p : set_p0_inputs l (set_p0_inputs l' p) = set_p0_inputs l p.
Proof. reflexivity. Qed.
Lemma skipn_nth {A} (l : list A) : forall k a, nth_error l k = Some a -> skipn k l = a :: skipn (Datatypes.S k) l.
Proof. induction l as [|x l IH]; intros [|k] a; cbn [nth_error skipn]; try discriminate; [now intros [= ->]|apply IH]. Qed.
Lemma set_nth_app {A} (l : list A) a b r : set_nth (length l) a (l ++ b :: r) = l ++ a :: r.
Proof. induction l; cbn; congruence. Qed.

(** What happens to the inputs, in order; [done] are the ones before. *)
Inductive steps (mall : bool) (p : psbt0) : list input0 -> list input0 -> list input0 -> list (N * msferr0) -> Prop :=
| StNil done : steps mall p done [] [] []
| StDone done i r w ss r' es :
    built mall (set_p0_inputs (done ++ i :: r) p) (blen done) w ss ->
    accepted (set_p0_inputs (done ++ i :: r) p) (blen done) w ss ->
    steps mall p (done ++ [finalized_input0 i w ss]) r r' es ->
    steps mall p done (i :: r) (finalized_input0 i w ss :: r') es
| StFail done i r e r' es :
    fails0 mall (set_p0_inputs (done ++ i :: r) p) (blen done) e ->
    steps mall p (done ++ [i]) r r' es ->
    steps mall p done (i :: r) (i :: r') ((blen done, e) :: es).

Lemma seq_of {A} (k : list A) m : map N.of_nat (seq (length k) (Datatypes.S m)) = blen k :: map N.of_nat (seq (Datatypes.S (length k)) m).
Proof. reflexivity. Qed.

Lemma finalize_all_spec mall p : forall r done errs,
  length (done ++ r) = length (tx_input (p0_unsigned_tx p)) ->
  match finalize_all mall (map N.of_nat (seq (length done) (length r))) (set_p0_inputs (done ++ r) p) errs with
  | Ok (q, es) => exists r' l, steps mall p done r r' l /\ q = set_p0_inputs (done ++ r') p /\ es = errs ++ map snd l
  | Err _ => False
  | Panic => Exists vout_out_of_bounds (spends (set_p0_inputs (done ++ r) p))
  end.
Proof.
  induction r as [|i r IH]; intros done errs Hl.
  - cbn [length seq map finalize_all]. exists [], []. split; [constructor|]. now rewrite !app_nil_r.
  - cbn [length]. rewrite seq_of. cbn [finalize_all]. set (q := set_p0_inputs (done ++ i :: r) p).
    assert (Hone : one_map_per_input q) by exact Hl.
    destruct (spend_of q (blen done) Hone) as [[t i'] Hs]. { unfold q. cbn [p0_inputs set_p0_inputs]. unfold blen. rewrite app_length. cbn. lia. }
    assert (i' = i).
    { apply spend_at_iff in Hs as [_ Hs]. unfold q, blen in Hs. rewrite Nat2N.id in Hs. cbn [p0_inputs set_p0_inputs] in Hs. rewrite nth_error_app2, Nat.sub_diag in Hs by lia. now injection Hs. }
    subst i'. pose proof (finalize_input0_spec mall q (blen done) _ Hone Hs) as H. destruct (finalize_input0 mall q (blen done)) as [p'|e|].
    + destruct H as (w & ss & Hb & Ha & ->). cbn [snd] in *. set (i' := finalized_input0 i w ss) in *.
      assert (Eq : set_p0_inputs (set_nth (N.to_nat (blen done)) i' (p0_inputs q)) q = set_p0_inputs ((done ++ [i']) ++ r) p).
      { unfold q, blen. rewrite Nat2N.id, set_p0_inputs_twice. cbn [p0_inputs set_p0_inputs]. rewrite set_nth_app, <- app_assoc. reflexivity. }
      rewrite Eq. specialize (IH (done ++ [i']) errs). assert (El : length (done ++ [i']) = Datatypes.S (length done)) by (rewrite app_length; cbn; lia).
      rewrite El in IH. assert (Hl' : length ((done ++ [i']) ++ r) = length (tx_input (p0_unsigned_tx p))) by (rewrite <- Hl, !app_length; cbn; lia).
      specialize (IH Hl'). destruct (finalize_all mall _ _ _) as [[q' es]| |]; [|contradiction|].
      * destruct IH as (r' & l & Hst & -> & ->). exists (i' :: r'), l. split; [now apply (StDone mall p done i r w ss)|]. split; [|reflexivity]. now rewrite <- app_assoc.
      * revert IH. apply same_oob. split; [reflexivity|]. unfold q. cbn [p0_inputs set_p0_inputs]. rewrite <- app_assoc. apply Forall2_app.
        -- clear. induction done; constructor; [split; reflexivity|assumption].
        -- constructor; [split; reflexivity|]. clear. induction r; constructor; [split; reflexivity|assumption].
    + assert (Eq : q = set_p0_inputs ((done ++ [i]) ++ r) p) by (unfold q; now rewrite <- app_assoc).
      specialize (IH (done ++ [i]) (errs ++ [e])). assert (El : length (done ++ [i]) = Datatypes.S (length done)) by (rewrite app_length; cbn; lia).
      rewrite El in IH. assert (Hl' : length ((done ++ [i]) ++ r) = length (tx_input (p0_unsigned_tx p))) by (rewrite <- Hl, !app_length; cbn; lia).
      specialize (IH Hl'). rewrite <- Eq in IH. destruct (finalize_all mall _ _ _) as [[q' es]| |]; [|contradiction|].
      * destruct IH as (r' & l & Hst & -> & ->). exists (i :: r'), ((blen done, e) :: l). split; [now apply StFail|].
        split; [now rewrite <- app_assoc|]. cbn [map snd]. now rewrite <- app_assoc.
      * assumption.
    + assumption.
Qed.

Lemma steps_length mall p done r r' l : steps mall p done r r' l -> length r' = length r.
Proof. induction 1; cbn; congruence. Qed.
Lemma steps_utxos mall p done r r' l : steps mall p done r r' l -> Forall2 same_utxos r r'.
Proof. induction 1; constructor; auto; split; reflexivity. Qed.

(** The outcome for one input. *)
Lemma steps_at mall p done r r' l : steps mall p done r r' l -> forall k i i', nth_error r k = Some i -> nth_error r' k = Some i' ->
  let n := N.of_nat (length done + k) in
  let q := set_p0_inputs (done ++ firstn k r' ++ skipn k r) p in
  (exists w ss, built mall q n w ss /\ accepted q n w ss /\ i' = finalized_input0 i w ss /\ forall e, ~ In (n, e) l)
  \/ (i' = i /\ exists e, fails0 mall q n e /\ In (n, e) l /\ forall e', In (n, e') l -> e' = e).
Proof.
  assert (Lo : forall done r r' l, steps mall p done r r' l -> forall n e, In (n, e) l -> blen done <= n).
  { intros d a b c H. induction H as [|d i a w ss b c _ _ _ IH|d i a e b c _ _ IH]; intros n e' Hin.
    - destruct Hin.
    - specialize (IH n e' Hin). unfold blen in *. rewrite app_length in IH. lia.
    - destruct Hin as [[= <- <-]|Hin]; [lia|]. specialize (IH n e' Hin). unfold blen in *. rewrite app_length in IH. lia. }
  induction 1 as [|d i a w ss b c Hb Ha Hst IH|d i a e b c Hf Hst IH]; intros [|k] j j' Hj Hj'; cbn [nth_error] in Hj, Hj'; try discriminate; cbv zeta.
  - injection Hj as <-. injection Hj' as <-. left. exists w, ss. cbn [firstn skipn app]. replace (N.of_nat (length d + 0)) with (blen d) by (unfold blen; lia).
    split; [assumption|]. split; [assumption|]. split; [reflexivity|]. intros e Hin. apply (Lo _ _ _ _ Hst) in Hin. unfold blen in Hin. rewrite app_length in Hin. cbn in Hin. lia.
  - specialize (IH k j j' Hj Hj'). cbv zeta in IH. rewrite app_length in IH. cbn [length] in IH. replace (length d + 1 + k)%nat with (length d + Datatypes.S k)%nat in IH by lia.
    cbn [firstn skipn app]. rewrite <- app_assoc in IH. exact IH.
  - injection Hj as <-. injection Hj' as <-. right. split; [reflexivity|]. exists e. cbn [firstn skipn app]. replace (N.of_nat (length d + 0)) with (blen d) by (unfold blen; lia).
    split; [assumption|]. split; [now left|]. intros e' [[= <-]|Hin]; [reflexivity|]. apply (Lo _ _ _ _ Hst) in Hin. unfold blen in Hin. rewrite app_length in Hin. cbn in Hin. lia.
  - specialize (IH k j j' Hj Hj'). cbv zeta in IH. rewrite app_length in IH. cbn [length] in IH. replace (length d + 1 + k)%nat with (length d + Datatypes.S k)%nat in IH by lia.
    cbn [firstn skipn app]. rewrite <- app_assoc in IH. cbn [app] in IH. destruct IH as [(w & ss & H1 & H2 & H3 & H4)|(H1 & e' & H2 & H3 & H4)].
    + left. exists w, ss. split; [assumption|]. split; [assumption|]. split; [assumption|]. intros e' [[= Hn _]|Hin]; [unfold blen in Hn; lia|now apply (H4 e')].
    + right. split; [assumption|]. exists e'. split; [assumption|]. split; [now right|]. intros e2 [[= Hn _]|Hin]; [unfold blen in Hn; lia|now apply H4].
Qed.

Lemma steps_sorted mall p done r r' l : steps mall p done r r' l ->
  StronglySorted N.lt (map fst l) /\ Forall (fun n => blen done <= n < blen done + blen r) (map fst l).
Proof.
  induction 1 as [|d i a w ss b c Hb Ha Hst IH|d i a e b c Hf Hst IH]; cbn [map fst].
  - split; constructor.
  - destruct IH as [IH1 IH2]. split; [assumption|]. eapply Forall_impl; [|exact IH2]. intros n. unfold blen. rewrite app_length. cbn [length]. lia.
  - destruct IH as [IH1 IH2]. split.
    + constructor; [assumption|]. eapply Forall_impl; [|exact IH2]. intros n. unfold blen. rewrite app_length. cbn [length]. lia.
    + constructor; [unfold blen; cbn [length]; lia|]. eapply Forall_impl; [|exact IH2]. intros n. unfold blen. rewrite app_length. cbn [length]. lia.
Qed.

End Facts.
