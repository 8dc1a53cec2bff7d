(** C147: what [Psbt::interpreter_check] says about any PSBT. *)
From Coq Require Import List.
From Verif Require Import Base OMap Consensus ConsensusFacts Ext ExtInstance Raw RawFacts TapTree Serialize SerializeFacts MapCodec
  V2Global V2Input V2Output V2Psbt SpecCodec SpecPsbt V2PsbtFacts V2WireFacts V2CodecFacts V2Roles SpecRoles V2RolesFacts
  Script SighashType V2Sign SignInstance SpecSign V2SignFacts SampleV2 PropertiesV2Roles PropertiesV2Sign
  V2ParallelFacts V2Finalize SpecFinalize V2FinalizeFacts MsInstance PropertiesV2Finalize.
Local Open Scope N_scope.

(** Used by the examples only; the theorems bind their own. *)
#[local] Existing Instance toy | 100.
#[local] Existing Instance toy_laws | 100.
#[local] Instance ex_cfg : Cfg | 100 := cfg_of false false.
#[local] Existing Instance toy_sign | 100.
#[local] Existing Instance toy_ms | 100.

(** The transaction of [p] with the lock time [n]; the code takes 0 for a missing sequence, where
    the BIP has 0xffffffff. *)
Definition tx_with (p : psbt) (n : N) : tx :=
  Tx (g_tx_version (p_global p)) n
     (map (fun i => TxIn (in_previous_txid i) (in_spent_output_index i) []
                         (match in_sequence i with Some s => s | None => 0 end) []) (p_inputs p))
     (map (fun o => TxOut (out_amount o) (out_script_pubkey o)) (p_outputs p)).

(** The lock time an input asks for, a height before a time. *)
Definition asked_lock (i : input) (n : N) : Prop :=
  in_min_height i = Some n
  \/ (in_min_height i = None /\ in_min_time i = Some n)
  \/ (in_min_height i = None /\ in_min_time i = None /\ n = 0).

(** The interpreter is run on the script that is spent and the final fields of the input, with the
    lock time and the sequence of the input (here 0xffffffff when missing). *)
Definition interprets `{M : MsExt} (t : tx) (us : list txout) (k : nat) (i : input) (v : interp) : Prop :=
  exists u ss w lock, nth_error us k = Some u /\ in_final_script_sig i = Some ss /\ in_final_script_witness i = Some w
    /\ asked_lock i lock
    /\ ms_interpret (to_script u) ss w (match in_sequence i with Some s => s | None => 2 ^ 32 - 1 end) lock t (N.of_nat k) us = v.
(** The first [n] inputs are accepted. *)
Definition accepted_before `{M : MsExt} (t : tx) (us : list txout) (l : list input) (n : nat) : Prop :=
  forall k i, (k < n)%nat -> nth_error l k = Some i -> interprets t us k i IOk.

Inductive checks `{M : MsExt} (debug : bool) (p : psbt) : res checkerr unit -> Prop :=
| KUnfinished :
    debug = true -> ~ Forall finalized (p_inputs p) -> checks debug p Panic
| KLock :
    (debug = true -> Forall finalized (p_inputs p)) -> bip370_lock_time p None ->
    checks debug p (Err (CEDetermineLockTime DetermineLockTimeError))
| KUnfunded n :
    (debug = true -> Forall finalized (p_inputs p)) -> bip370_lock_time p (Some n) ->
    (forall us, ~ spends (p_inputs p) us) -> checks debug p Panic
| KConstructor n us k i :
    (debug = true -> Forall finalized (p_inputs p)) -> bip370_lock_time p (Some n) -> spends (p_inputs p) us ->
    nth_error (p_inputs p) k = Some i -> accepted_before (tx_with p n) us (p_inputs p) k ->
    interprets (tx_with p n) us k i IConstructor -> checks debug p (Err (CEInput (CIConstructor (N.of_nat k))))
| KSatisfaction n us k i :
    (debug = true -> Forall finalized (p_inputs p)) -> bip370_lock_time p (Some n) -> spends (p_inputs p) us ->
    nth_error (p_inputs p) k = Some i -> accepted_before (tx_with p n) us (p_inputs p) k ->
    interprets (tx_with p n) us k i ISatisfaction -> checks debug p (Err (CEInput (CISatisfaction (N.of_nat k))))
| KOpen n us k i :
    debug = false -> bip370_lock_time p (Some n) -> spends (p_inputs p) us ->
    nth_error (p_inputs p) k = Some i -> accepted_before (tx_with p n) us (p_inputs p) k ->
    ~ finalized i -> checks debug p Panic
| KOk n us :
    bip370_lock_time p (Some n) -> spends (p_inputs p) us ->
    (forall k i, nth_error (p_inputs p) k = Some i -> interprets (tx_with p n) us k i IOk) -> checks debug p (Ok tt).

Lemma asked_lock_iff i n : asked_lock i n <-> input_lock_time i = n.
Proof.
  unfold asked_lock, input_lock_time. destruct (in_min_height i) as [h|], (in_min_time i) as [t|]; split;
    try (intros [H|[[H1 H2]|(H1 & H2 & H3)]]; congruence); intros <-; auto.
Qed.
Lemma tx_with_eq p n : determine_lock_time p = Ok n -> unsigned_tx p = Ok (tx_with p n).
Proof.
  intros H. rewrite (unsigned_tx_ok _ _ H). reflexivity.
Qed.
Lemma interprets_iff `{M : MsExt} t us l k i v : spends l us -> nth_error l k = Some i ->
  (interprets t us k i v <-> verdict t us (N.of_nat k) i v).
Proof.
  intros Hs Hi. assert (exists u, nth_error us k = Some u /\ funds i u) as (u & Hu & Hf).
  { destruct (F2_at _ _ _ Hs _ _ Hi) as (u & Hu & Hf). eauto. }
  split.
  - intros (u' & ss & w & n & Hu' & Hss & Hw & Hn & H). apply asked_lock_iff in Hn. subst n. exists u, ss, w.
    assert (u' = u) by congruence. subst u'. auto.
  - intros (u' & ss & w & Hu' & Hss & Hw & H). assert (u' = u) by (eapply funds_unique; eauto). subst u'.
    exists u, ss, w, (input_lock_time i). repeat (split; [assumption || now apply asked_lock_iff|]). exact H.
Qed.

Lemma spends_dec l : (exists us, spends l us) \/ (forall us, ~ spends l us).
Proof.
  induction l as [|i l IH]; [left; exists []; constructor|].
  destruct (input_funding_utxo i) as [u|e|] eqn:E.
  - apply funding_ok_iff in E. destruct IH as [[us IH]|IH]; [left; exists (u :: us); now constructor|].
    right. intros us H. inversion H; subst. eapply IH; eassumption.
  - right. intros us H. inversion H as [|? u ? us' Hu _]; subst. apply funding_ok_iff in Hu. congruence.
  - right. intros us H. inversion H as [|? u ? us' Hu _]; subst. apply funding_ok_iff in Hu. congruence.
Qed.
Lemma no_utxos {E} l : (forall us, ~ spends l us) -> all_utxos (E := E) l = Panic.
Proof.
  intros H. destruct (all_utxos (E := E) l) as [us|e|] eqn:Eq; [exfalso; apply (H us); now apply (all_utxos_ok (E := E))| |reflexivity].
  exfalso. clear H. revert e Eq. induction l as [|i l IH]; intros e Eq; cbn [all_utxos] in Eq; [discriminate|].
  destruct (input_funding_utxo i); cbn [expect_ok bind] in Eq; try discriminate. destruct (all_utxos l); cbn [bind] in Eq; try discriminate. now apply (IH e0).
Qed.

Lemma check_loop `{M : MsExt} t us l0 l : forall pre, l0 = pre ++ l -> spends l0 us ->
  match interpreter_check_inputs t us (N.of_nat (length pre)) l with
  | Ok _ => forall k i, (length pre <= k)%nat -> nth_error l0 k = Some i -> interprets t us k i IOk
  | Err e => exists k i, (length pre <= k)%nat /\ nth_error l0 k = Some i
      /\ (forall m j, (length pre <= m < k)%nat -> nth_error l0 m = Some j -> interprets t us m j IOk)
      /\ ((e = CIConstructor (N.of_nat k) /\ interprets t us k i IConstructor) \/ (e = CISatisfaction (N.of_nat k) /\ interprets t us k i ISatisfaction))
  | Panic => exists k i, (length pre <= k)%nat /\ nth_error l0 k = Some i /\ ~ finalized i
      /\ (forall m j, (length pre <= m < k)%nat -> nth_error l0 m = Some j -> interprets t us m j IOk)
  end.
Proof.
  induction l as [|i l IH]; intros pre E Hs.
  { cbn [interpreter_check_inputs]. intros k i Hk Hn. rewrite app_nil_r in E. subst l0.
    assert (k < length pre)%nat by (apply nth_error_Some; congruence). lia. }
  assert (Hi : nth_error l0 (length pre) = Some i) by (rewrite E, nth_error_app2, Nat.sub_diag by lia; reflexivity).
  destruct (F2_at _ _ _ Hs _ _ Hi) as (u & Hu & Hf).
  pose proof (check_step t us (N.of_nat (length pre)) i l u Hf) as S.
  assert (No : forall m, (length pre <= m < length pre)%nat -> False) by lia.
  destruct (in_final_script_sig i) as [ss|] eqn:Es, (in_final_script_witness i) as [w|] eqn:Ew.
  2,3,4: rewrite S; exists (length pre), i; split; [lia|]; split; [exact Hi|]; split; [intros [? ?]; congruence|intros m j Hm; destruct (No _ Hm)].
  destruct S as (r & Hr & ->). apply (interprets_iff t us l0 _ _ _ Hs Hi) in Hr. destruct r.
  2,3: exists (length pre), i; split; [lia|]; split; [exact Hi|]; split; [intros m j Hm; destruct (No _ Hm)|auto].
  specialize (IH (pre ++ [i])). rewrite app_length in IH. cbn [length] in IH.
  replace (N.of_nat (length pre) + 1) with (N.of_nat (length pre + 1)) by lia.
  specialize (IH ltac:(now rewrite <- app_assoc) Hs).
  assert (Step : forall n, (forall m j, (length pre + 1 <= m < n)%nat -> nth_error l0 m = Some j -> interprets t us m j IOk) ->
    forall m j, (length pre <= m < n)%nat -> nth_error l0 m = Some j -> interprets t us m j IOk).
  { intros n H m j Hm Hj. destruct (Nat.eq_dec m (length pre)) as [->|Hne]; [congruence|]. apply H; [lia|exact Hj]. }
  destruct (interpreter_check_inputs _ _ _ _) as [[]|e|].
  - intros k j Hk Hj. destruct (Nat.eq_dec k (length pre)) as [->|Hne]; [congruence|]. apply IH; [lia|exact Hj].
  - destruct IH as (k & j & Hk & Hj & Hb & Hc). exists k, j. split; [lia|]. split; [exact Hj|]. split; [now apply Step|exact Hc].
  - destruct IH as (k & j & Hk & Hj & Hb & Hc). exists k, j. split; [lia|]. split; [exact Hj|]. split; [exact Hb|now apply Step].
Qed.

Lemma checks_result `{C : Cfg} `{M : MsExt} p : checks debug_assertions p (interpreter_check p).
Proof.
  unfold interpreter_check. destruct (C18_lock_time p) as (L1 & L2 & L3).
  assert (D : psbt_is_finalized p = true <-> Forall finalized (p_inputs p)) by apply is_finalized_iff.
  destruct (negb debug_assertions || psbt_is_finalized p) eqn:Ed; cbn [panic_unless bind].
  2:{ apply orb_false_iff in Ed as [E1 E2]. apply KUnfinished; [now destruct debug_assertions|]. intros K. apply D in K. congruence. }
  assert (Hd : debug_assertions = true -> Forall finalized (p_inputs p)).
  { intros K. rewrite K in Ed. now apply D. }
  destruct (determine_lock_time p) as [n|[]|] eqn:El; [|unfold unsigned_tx; rewrite El; cbn [map_err bind]; apply KLock; [exact Hd|now apply L2]|now destruct L3].
  rewrite (tx_with_eq p n El). cbn [map_err bind]. assert (Hn : bip370_lock_time p (Some n)) by now apply L1.
  destruct (spends_dec (p_inputs p)) as [[us Hus]|Hus]; [|rewrite (no_utxos _ Hus); cbn [bind]; eapply KUnfunded; eauto].
  rewrite (proj2 (all_utxos_ok (E := checkerr) _ us) Hus). cbn [bind].
  pose proof (check_loop (tx_with p n) us (p_inputs p) (p_inputs p) [] eq_refl Hus) as Q. cbn [length N.of_nat] in Q.
  destruct (interpreter_check_inputs _ _ _ _) as [[]|e|]; cbn [map_err].
  - eapply KOk; eauto. intros k i Hk. apply Q; [lia|exact Hk].
  - destruct Q as (k & i & _ & Hi & Hb & [[-> Hv]|[-> Hv]]).
    + eapply KConstructor; eauto. intros m j Hm. apply Hb. lia.
    + eapply KSatisfaction; eauto. intros m j Hm. apply Hb. lia.
  - destruct Q as (k & i & _ & Hi & Hf & Hb). destruct debug_assertions eqn:Eb.
    + exfalso. apply Hf. specialize (Hd eq_refl). rewrite Forall_forall in Hd. apply Hd. eapply nth_error_In; eauto.
    + eapply KOpen; eauto. intros m j Hm. apply Hb. lia.
Qed.

Lemma interprets_fun `{M : MsExt} t us k i v v' : interprets t us k i v -> interprets t us k i v' -> v = v'.
Proof.
  intros (u & ss & w & n & H1 & H2 & H3 & H4 & H5) (u' & ss' & w' & n' & H1' & H2' & H3' & H4' & H5').
  apply asked_lock_iff in H4, H4'. congruence.
Qed.
Lemma interprets_final `{M : MsExt} t us k i v : interprets t us k i v -> finalized i.
Proof. intros (u & ss & w & n & H1 & H2 & H3 & H4 & H5). split; congruence. Qed.
Lemma same_place `{M : MsExt} t us l k i k' i' :
  nth_error l k = Some i -> accepted_before t us l k -> ~ interprets t us k i IOk ->
  nth_error l k' = Some i' -> accepted_before t us l k' -> ~ interprets t us k' i' IOk -> k = k' /\ i = i'.
Proof.
  intros H1 H2 H3 H1' H2' H3'. assert (k = k').
  { destruct (Nat.lt_trichotomy k k') as [K|[K|K]]; [|exact K|]; exfalso; [apply H3|apply H3']; eauto. }
  subst k'. split; congruence.
Qed.

Lemma checks_only `{C : Cfg} `{M : MsExt} p r : checks debug_assertions p r -> interpreter_check p = r.
Proof.
  intros H. unfold interpreter_check. destruct (C18_lock_time p) as (L1 & L2 & L3).
  assert (D : psbt_is_finalized p = true <-> Forall finalized (p_inputs p)) by apply is_finalized_iff.
  assert (Hd : (debug_assertions = true -> Forall finalized (p_inputs p)) -> negb debug_assertions || psbt_is_finalized p = true).
  { intros K. destruct debug_assertions; [apply D in K; [now rewrite K|reflexivity]|reflexivity]. }
  assert (Loop : forall n us, bip370_lock_time p (Some n) -> spends (p_inputs p) us ->
    (t <- map_err CEDetermineLockTime (unsigned_tx p) ;; utxos <- all_utxos (p_inputs p) ;; map_err CEInput (interpreter_check_inputs t utxos 0 (p_inputs p)))
    = map_err CEInput (interpreter_check_inputs (tx_with p n) us 0 (p_inputs p))).
  { intros n us Hn Hus. apply L1 in Hn. rewrite (tx_with_eq p n Hn). cbn [map_err bind].
    now rewrite (proj2 (all_utxos_ok (E := checkerr) _ us) Hus). }
  assert (Q : forall n us, spends (p_inputs p) us -> _) by (intros n us Hus; exact (check_loop (tx_with p n) us (p_inputs p) (p_inputs p) [] eq_refl Hus)).
  cbn [length N.of_nat] in Q.
  inversion H as [E1 E2|E1 E2|n E1 E2 E3|n us k i E1 E2 E3 E4 E5 E6|n us k i E1 E2 E3 E4 E5 E6|n us k i E1 E2 E3 E4 E5 E6|n us E1 E2 E3].
  - rewrite E1. destruct (psbt_is_finalized p) eqn:F; [now destruct E2; apply D|reflexivity].
  - rewrite (Hd E1). apply L2 in E2. unfold unsigned_tx. rewrite E2. reflexivity.
  - rewrite (Hd E1). apply L1 in E2. rewrite (tx_with_eq p n E2). cbn [panic_unless map_err bind]. now rewrite (no_utxos _ E3).
  - rewrite (Hd E1). cbn [panic_unless bind]. rewrite (Loop n us E2 E3). specialize (Q n us E3).
    assert (Nk : ~ interprets (tx_with p n) us k i IOk) by (intros K; pose proof (interprets_fun _ _ _ _ _ _ K E6); discriminate).
    destruct (interpreter_check_inputs _ _ _ _) as [[]|e|]; cbn [map_err].
    + exfalso. apply Nk, Q; [lia|exact E4].
    + destruct Q as (k' & i' & _ & Hi & Hb & Hc). assert (Nk' : ~ interprets (tx_with p n) us k' i' IOk).
      { intros K. destruct Hc as [[_ Hc]|[_ Hc]]; pose proof (interprets_fun _ _ _ _ _ _ K Hc); discriminate. }
      destruct (same_place _ _ _ _ _ _ _ E4 E5 Nk Hi ltac:(intros m j Hm; apply Hb; lia) Nk') as [<- <-].
      destruct Hc as [[-> _]|[_ Hc]]; [reflexivity|]. pose proof (interprets_fun _ _ _ _ _ _ E6 Hc). discriminate.
    + destruct Q as (k' & i' & _ & Hi & Hf & Hb).
      destruct (same_place _ _ _ _ _ _ _ E4 E5 Nk Hi ltac:(intros m j Hm; apply Hb; lia) ltac:(intros K; apply Hf; eapply interprets_final; exact K)) as [<- <-].
      destruct Hf. eapply interprets_final; exact E6.
  - rewrite (Hd E1). cbn [panic_unless bind]. rewrite (Loop n us E2 E3). specialize (Q n us E3).
    assert (Nk : ~ interprets (tx_with p n) us k i IOk) by (intros K; pose proof (interprets_fun _ _ _ _ _ _ K E6); discriminate).
    destruct (interpreter_check_inputs _ _ _ _) as [[]|e|]; cbn [map_err].
    + exfalso. apply Nk, Q; [lia|exact E4].
    + destruct Q as (k' & i' & _ & Hi & Hb & Hc). assert (Nk' : ~ interprets (tx_with p n) us k' i' IOk).
      { intros K. destruct Hc as [[_ Hc]|[_ Hc]]; pose proof (interprets_fun _ _ _ _ _ _ K Hc); discriminate. }
      destruct (same_place _ _ _ _ _ _ _ E4 E5 Nk Hi ltac:(intros m j Hm; apply Hb; lia) Nk') as [<- <-].
      destruct Hc as [[_ Hc]|[-> _]]; [|reflexivity]. pose proof (interprets_fun _ _ _ _ _ _ E6 Hc). discriminate.
    + destruct Q as (k' & i' & _ & Hi & Hf & Hb).
      destruct (same_place _ _ _ _ _ _ _ E4 E5 Nk Hi ltac:(intros m j Hm; apply Hb; lia) ltac:(intros K; apply Hf; eapply interprets_final; exact K)) as [<- <-].
      destruct Hf. eapply interprets_final; exact E6.
  - rewrite (Hd ltac:(congruence)). cbn [panic_unless bind]. rewrite (Loop n us E2 E3). specialize (Q n us E3).
    assert (Nk : ~ interprets (tx_with p n) us k i IOk) by (intros K; apply E6; eapply interprets_final; exact K).
    destruct (interpreter_check_inputs _ _ _ _) as [[]|e|]; cbn [map_err].
    + exfalso. apply Nk, Q; [lia|exact E4].
    + destruct Q as (k' & i' & _ & Hi & Hb & Hc). assert (Nk' : ~ interprets (tx_with p n) us k' i' IOk).
      { intros K. destruct Hc as [[_ Hc]|[_ Hc]]; pose proof (interprets_fun _ _ _ _ _ _ K Hc); discriminate. }
      destruct (same_place _ _ _ _ _ _ _ E4 E5 Nk Hi ltac:(intros m j Hm; apply Hb; lia) Nk') as [<- <-].
      destruct E6. destruct Hc as [[_ Hc]|[_ Hc]]; eapply interprets_final; exact Hc.
    + reflexivity.
  - assert (F : Forall finalized (p_inputs p)).
    { apply Forall_forall. intros i Hi. apply In_nth_error in Hi as (k & Hi). eapply interprets_final. apply (E3 k i Hi). }
    rewrite (Hd (fun _ => F)). cbn [panic_unless bind]. rewrite (Loop n us E1 E2). specialize (Q n us E2).
    destruct (interpreter_check_inputs _ _ _ _) as [[]|e|]; cbn [map_err]; [reflexivity| |].
    + destruct Q as (k' & i' & _ & Hi & Hb & Hc). specialize (E3 k' i' Hi).
      destruct Hc as [[_ Hc]|[_ Hc]]; pose proof (interprets_fun _ _ _ _ _ _ E3 Hc); discriminate.
    + destruct Q as (k' & i' & _ & Hi & Hf & Hb). destruct Hf. eapply interprets_final, (E3 k' i' Hi).
Qed.

(** What the check answers, for every PSBT. *)
Theorem C147_outcome : forall (C : Cfg) (M : MsExt) p r, interpreter_check p = r <-> checks debug_assertions p r.
Proof. intros C M p r. split; [intros <-; apply checks_result|apply checks_only]. Qed.
Print Assumptions C147_outcome.

(** What the finalizer returns passes the check again, also when it was stored in between. *)
Theorem C147_finalized : forall (X : Ext) (C : Cfg) (M : MsExt) p q,
  finalizer_finalize p = Ok q -> interpreter_check q = Ok tt.
Proof.
  intros X C M p q H. unfold finalizer_finalize in H. apply bind_ok in H as (l & Hl & H). apply bind_ok in H as ([] & Hc & H).
  apply map_err_ok in Hc. inj H. exact Hc.
Qed.
Print Assumptions C147_finalized.
Theorem C147_stored : forall (X : Ext) (L : ExtLaws X) (C : Cfg) (M : MsExt) p q,
  wf_psbt p -> no_tap_ties p -> finalizer_value p -> finalizer_finalize p = Ok q ->
  (forall i ss w, In i (p_inputs p) -> computed p i ss w -> wf_value ss /\ wf_witness_v w) ->
  exists q', psbt_deserialize (psbt_serialize q) = Ok q' /\ interpreter_check q' = Ok tt.
Proof. intros X L C M p q W T V H Hs. exists q. split; [eapply C70_roundtrip; eauto|]. eapply C147_finalized; eauto. Qed.
Print Assumptions C147_stored.

(** It does panic, contrary to the claim: for a PSBT that is not finalized, with or without debug
    assertions, and for one that is finalized but whose utxos were left out; both can be read. *)
Definition iq_bare : psbt := ex_of 0 [set_in_final_script_witness (Some [[x01]]) (set_in_final_script_sig (Some []) (input_new (txid_a, 0)))].
Theorem C147_panic_refuted : exists p q, psbt_deserialize (psbt_serialize p) = Ok p /\ psbt_deserialize (psbt_serialize q) = Ok q
  /\ psbt_is_finalized p = true /\ psbt_is_finalized q = false
  /\ (forall b, @interpreter_check (cfg_of false b) toy_ms p = Panic) /\ (forall b, @interpreter_check (cfg_of false b) toy_ms q = Panic).
Proof.
  exists iq_bare, (ex_of 0 [fx_wpkh]). split; [vm_compute; reflexivity|]. split; [vm_compute; reflexivity|]. split; [reflexivity|].
  split; [reflexivity|]. split; intros []; vm_compute; reflexivity.
Qed.
Print Assumptions C147_panic_refuted.

(** Without these two there is no panic. *)
Theorem C147_partial : forall (C : Cfg) (M : MsExt) p us,
  Forall finalized (p_inputs p) -> spends (p_inputs p) us ->
  interpreter_check p <> Panic
  /\ (interpreter_check p = Ok tt <-> exists n, bip370_lock_time p (Some n)
        /\ forall k i, nth_error (p_inputs p) k = Some i -> interprets (tx_with p n) us k i IOk).
Proof.
  intros C M p us F Hs. split.
  - intros H. apply C147_outcome in H. inversion H as [E1 E2|E1 E2|n E1 E2 E3|n us' k i E1 E2 E3 E4 E5 E6|n us' k i E1 E2 E3 E4 E5 E6|n us' k i E1 E2 E3 E4 E5 E6|n us' E1 E2 E3].
    + contradiction.
    + exact (E3 us Hs).
    + apply E6. rewrite Forall_forall in F. apply F. eapply nth_error_In; eauto.
  - rewrite C147_outcome. split.
    + intros H. inversion H as [E1 E2|E1 E2|n E1 E2 E3|n us' k i E1 E2 E3 E4 E5 E6|n us' k i E1 E2 E3 E4 E5 E6|n us' k i E1 E2 E3 E4 E5 E6|n us' E1 E2 E3].
      exists n. split; [exact E1|]. assert (us' = us) by (eapply spends_fun; eauto). subst us'. exact E3.
    + intros (n & Hn & H). eapply KOk; eauto.
Qed.
Print Assumptions C147_partial.

Example C147_case :
  let p := fx_signed fx_code fx_wpkh in
  let bad := map (set_in_final_script_witness (Some [[x01]; fx_key])) (p_inputs (fx_final p)) in
  interpreter_check (fx_final p) = Ok tt /\ Forall finalized (p_inputs (fx_final p))
  /\ spends (p_inputs (fx_final p)) [TxOut 5000 fx_wpkh_script]
  /\ checks false (ex_of 0 bad) (Err (CEInput (CISatisfaction 0))).
Proof.
  cbv zeta. split; [vm_compute; reflexivity|]. split; [apply is_finalized_iff; vm_compute; reflexivity|].
  split; [apply (all_utxos_ok (E := checkerr)); vm_compute; reflexivity|].
  apply (C147_outcome (cfg_of false false) toy_ms). vm_compute. reflexivity.
Qed.
