(** Facts about the roles of src/v2/mod.rs and src/v2/extract.rs. *)
From Coq Require Import Btauto.
From Verif Require Import Base OMap Consensus ConsensusFacts Ext Raw TapTree Serialize SerializeFacts MapCodec
  SpecCodec SpecCodecFacts V2Global V2Input V2Output V2Psbt SpecPsbt V2PsbtFacts V2Roles SpecRoles.
Local Open Scope N_scope.

(** ** Lock time *)

Definition opt_le (a b : option N) : Prop :=
  match a, b with None, _ => True | Some _, None => False | Some x, Some y => x <= y end.
Lemma opt_le_refl a : opt_le a a.
Proof. destruct a; cbn; auto. lia. Qed.
Lemma opt_le_trans a b c : opt_le a b -> opt_le b c -> opt_le a c.
Proof. destruct a, b, c; cbn; intros; try tauto; try lia. Qed.
Lemma opt_max_l a b : opt_le a (opt_max a b).
Proof. destruct a, b; cbn; auto; lia. Qed.
Lemma opt_max_r a b : opt_le b (opt_max a b).
Proof. destruct a, b; cbn; auto; lia. Qed.
Lemma opt_max_or a b : opt_max a b = a \/ opt_max a b = b.
Proof.
  destruct a as [x|], b as [y|]; cbn; auto.
  destruct (N.max_spec x y) as [[_ ->]|[_ ->]]; auto.
Qed.

Lemma fold_max l : forall a, let m := fold_left opt_max l a in
  opt_le a m /\ (forall b, In b l -> opt_le b m) /\ (m = a \/ In m l).
Proof.
  induction l as [|c l IH]; intros a; cbn [fold_left].
  - cbn. repeat split; auto using opt_le_refl. tauto.
  - specialize (IH (opt_max a c)). cbn zeta in *. destruct IH as (H1 & H2 & H3). repeat split.
    + eapply opt_le_trans; [apply opt_max_l|exact H1].
    + intros b [<-|Hb]; auto. eapply opt_le_trans; [apply opt_max_r|exact H1].
    + destruct H3 as [->|H3]; [|right; now right].
      destruct (opt_max_or a c) as [->| ->]; [now left|right; now left].
Qed.

Lemma iter_max_spec l : l <> [] ->
  exists m, iter_max l = Some m /\ In m l /\ forall b, In b l -> opt_le b m.
Proof.
  destruct l as [|a l]; [congruence|intros _]. cbn [iter_max].
  destruct (fold_max l a) as (H1 & H2 & H3). eexists. split; [reflexivity|]. split.
  - destruct H3 as [->|H3]; [now left|now right].
  - intros b [<-|Hb]; auto.
Qed.

Lemma is_some_spec {A} (o : option A) : is_some o = true <-> o <> None.
Proof. destruct o; cbn; split; congruence. Qed.
Lemma is_none_spec {A} (o : option A) : is_none o = true <-> o = None.
Proof. destruct o; cbn; split; congruence. Qed.

Lemma requires_time_spec i : input_requires_time i = true <-> only_time i.
Proof. unfold input_requires_time, only_time. now rewrite andb_true_iff, is_some_spec, is_none_spec. Qed.
Lemma requires_height_spec i : input_requires_height i = true <-> only_height i.
Proof. unfold input_requires_height, only_height. now rewrite andb_true_iff, is_some_spec, is_none_spec. Qed.
Lemma has_lock_spec i : input_has_lock_time i = true <-> needs_lock i.
Proof. unfold input_has_lock_time, needs_lock. now rewrite orb_true_iff, !is_some_spec. Qed.
Lemma satisfied_height_spec i : input_satisfied_height i = true <-> ~ only_time i.
Proof.
  unfold input_satisfied_height, input_requires_height, only_time.
  destruct (in_min_time i), (in_min_height i); cbn; split; intros H; try reflexivity; try discriminate.
  - intros [_ ?]; congruence.
  - destruct H; split; congruence.
  - intros [? _]; congruence.
  - intros [? _]; congruence.
Qed.

Lemma greatest_of (field : input -> option N) l :
  (exists i, In i l /\ field i <> None) ->
  exists n, iter_max (map field l) = Some (Some n) /\ greatest field l n.
Proof.
  intros (i & Hi & Hf).
  destruct (iter_max_spec (map field l)) as (m & Hm & Hin & Hle).
  { destruct l; [destruct Hi|discriminate]. }
  assert (Hs : opt_le (field i) m) by (apply Hle, in_map, Hi).
  destruct m as [n|]; [|destruct (field i); [destruct Hs|congruence]].
  exists n. split; auto. apply in_map_iff in Hin as (j & Hj & Hjl). split; [eauto|].
  intros k x Hk Hx. assert (Hk' : opt_le (field k) (Some n)) by (apply Hle, in_map, Hk).
  rewrite Hx in Hk'. exact Hk'.
Qed.

Lemma greatest_unique f l a b : greatest f l a -> greatest f l b -> a = b.
Proof.
  intros [(i & Hi & Ha) Ua] [(j & Hj & Hb) Ub]. apply Ub in Ha; auto. apply Ua in Hb; auto. lia.
Qed.

Lemma existsb_false {A} (f : A -> bool) l : existsb f l = false <-> forall a, In a l -> f a = false.
Proof.
  split.
  - intros H a Ha. destruct (f a) eqn:E; auto. assert (existsb f l = true) by (apply existsb_exists; eauto). congruence.
  - intros H. destruct (existsb f l) eqn:E; auto. apply existsb_exists in E as (a & Ha & E). rewrite H in E; auto.
Qed.

Lemma not_only_time_needs i : needs_lock i -> ~ only_time i -> in_min_height i <> None.
Proof. unfold needs_lock, only_time. destruct (in_min_height i); [congruence|]. intuition. Qed.
Lemma not_only_height_needs i : needs_lock i -> ~ only_height i -> in_min_time i <> None.
Proof. unfold needs_lock, only_height. destruct (in_min_time i); [congruence|]. intuition. Qed.
Lemma only_time_needs i : only_time i -> needs_lock i.
Proof. unfold only_time, needs_lock. tauto. Qed.

Lemma bip370_unique p a b : bip370_lock_time p a -> bip370_lock_time p b -> a = b.
Proof.
  intros Ha Hb.
  destruct Ha as [i j Hi Hj Ti Tj|Ha|h Ha Ga|t i Hi Ti Ha Ga];
  destruct Hb as [i' j' Hi' Hj' Ti' Tj'|Hb|h' Hb Gb|t' i' Hi' Ti' Hb Gb]; auto.
  - exfalso. exact (Hb i Hi (only_time_needs i Ti)).
  - exfalso. exact (Hb i Hi (only_time_needs i Ti) (proj2 Ti)).
  - exfalso. exact (Hb j Hj (or_intror (proj1 Tj)) (proj2 Tj)).
  - exfalso. exact (Ha i' Hi' (only_time_needs i' Ti')).
  - exfalso. destruct Gb as [(i & Hi & Hf) _]. apply (Ha i Hi). right. congruence.
  - exfalso. exact (Ha i' Hi' (only_time_needs i' Ti')).
  - exfalso. exact (Ha i' Hi' (only_time_needs i' Ti') (proj2 Ti')).
  - exfalso. destruct Ga as [(i & Hi & Hf) _]. apply (Hb i Hi). right. congruence.
  - f_equal. eapply greatest_unique; eauto.
  - exfalso. exact (Ha i' Hi' (only_time_needs i' Ti') (proj2 Ti')).
  - exfalso. exact (Ha j' Hj' (or_intror (proj1 Tj')) (proj2 Tj')).
  - exfalso. exact (Hb i Hi (only_time_needs i Ti)).
  - exfalso. exact (Hb i Hi (only_time_needs i Ti) (proj2 Ti)).
  - f_equal. eapply greatest_unique; eauto.
Qed.

Lemma determine_bip370 p :
  match determine_lock_time p with
  | Ok n => bip370_lock_time p (Some n)
  | Err _ => bip370_lock_time p None
  | Panic => False
  end.
Proof.
  unfold determine_lock_time.
  destruct (existsb input_requires_time (p_inputs p)) eqn:Et;
  destruct (existsb input_requires_height (p_inputs p)) eqn:Eh; cbn [andb].
  - apply existsb_exists in Et as (i & Hi & Ti). apply existsb_exists in Eh as (j & Hj & Tj).
    apply requires_time_spec in Ti. apply requires_height_spec in Tj. exact (LConflict p i j Hi Hj Ti Tj).
  - rewrite existsb_false in Eh. apply existsb_exists in Et as (i & Hi & Ti). apply requires_time_spec in Ti.
    replace (existsb input_has_lock_time (p_inputs p)) with true.
    2:{ symmetry. apply existsb_exists. exists i. split; auto. apply has_lock_spec. now apply only_time_needs. }
    replace (forallb input_satisfied_height (p_inputs p)) with false.
    2:{ symmetry. destruct (forallb _ _) eqn:E; auto. rewrite forallb_forall in E.
        apply E, satisfied_height_spec in Hi. tauto. }
    destruct (greatest_of in_min_time (p_inputs p)) as (n & -> & G); [exists i; split; auto; apply Ti|].
    cbn. apply (LTime p n i); auto. intros j Hj Nj. apply not_only_height_needs; auto.
    intros O. apply requires_height_spec in O. rewrite Eh in O; auto. discriminate.
  - rewrite existsb_false in Et. apply existsb_exists in Eh as (i & Hi & Ti). apply requires_height_spec in Ti.
    replace (existsb input_has_lock_time (p_inputs p)) with true.
    2:{ symmetry. apply existsb_exists. exists i. split; auto. apply has_lock_spec. right. apply Ti. }
    assert (F : forall j, In j (p_inputs p) -> ~ only_time j).
    { intros j Hj O. apply requires_time_spec in O. rewrite Et in O; auto. discriminate. }
    replace (forallb input_satisfied_height (p_inputs p)) with true.
    2:{ symmetry. apply forallb_forall. intros j Hj. apply satisfied_height_spec. auto. }
    destruct (greatest_of in_min_height (p_inputs p)) as (n & -> & G); [exists i; split; auto; apply Ti|].
    cbn. apply (LHeight p n); auto. intros j Hj Nj. apply not_only_time_needs; auto.
  - rewrite existsb_false in Et, Eh.
    assert (F : forall j, In j (p_inputs p) -> ~ only_time j).
    { intros j Hj O. apply requires_time_spec in O. rewrite Et in O; auto. discriminate. }
    destruct (existsb input_has_lock_time (p_inputs p)) eqn:El.
    + replace (forallb input_satisfied_height (p_inputs p)) with true.
      2:{ symmetry. apply forallb_forall. intros j Hj. apply satisfied_height_spec. auto. }
      apply existsb_exists in El as (i & Hi & Ni). apply has_lock_spec in Ni.
      destruct (greatest_of in_min_height (p_inputs p)) as (n & -> & G).
      { exists i; split; auto. apply not_only_time_needs; auto. }
      cbn. apply (LHeight p n); auto. intros j Hj Nj. apply not_only_time_needs; auto.
    + rewrite existsb_false in El. unfold opt_default. apply LFallback.
      intros i Hi N. apply has_lock_spec in N. rewrite El in N; auto. discriminate.
Qed.

Lemma determine_ok_iff p n : determine_lock_time p = Ok n <-> bip370_lock_time p (Some n).
Proof.
  pose proof (determine_bip370 p) as H. destruct (determine_lock_time p) as [m|e|]; [| |tauto].
  - split; [congruence|]. intros H'. pose proof (bip370_unique _ _ _ H H'). congruence.
  - split; [congruence|]. intros H'. pose proof (bip370_unique _ _ _ H H'). congruence.
Qed.
Lemma determine_err_iff p : (exists e, determine_lock_time p = Err e) <-> bip370_lock_time p None.
Proof.
  pose proof (determine_bip370 p) as H. destruct (determine_lock_time p) as [m|e|]; [| |tauto].
  - split; [intros [e He]; congruence|]. intros H'. pose proof (bip370_unique _ _ _ H H'). congruence.
  - split; eauto.
Qed.
Lemma determine_nopanic p : determine_lock_time p <> Panic.
Proof. pose proof (determine_bip370 p) as H. destruct (determine_lock_time p); [congruence|congruence|tauto]. Qed.

(** What the result says about every input. *)
Lemma determine_sound p n : determine_lock_time p = Ok n ->
  Forall (fun i => opt_of wf_time (in_min_time i) /\ opt_of wf_height (in_min_height i)) (p_inputs p) ->
  (n < 500000000 /\ forall i, In i (p_inputs p) -> needs_lock i -> exists h, in_min_height i = Some h /\ h <= n)
  \/ (500000000 <= n /\ forall i, In i (p_inputs p) -> needs_lock i -> exists t, in_min_time i = Some t /\ t <= n)
  \/ (forall i, In i (p_inputs p) -> ~ needs_lock i).
Proof.
  intros H Hwf. apply determine_ok_iff in H. rewrite Forall_forall in Hwf. inversion H as [|Hf|h Hn G E|t i Hi Ti Hn G E].
  - right. right. auto.
  - left. subst n. destruct G as [(i & Hi & Hh) Hm]. split.
    + destruct (Hwf i Hi) as [_ W]. rewrite Hh in W. cbn in W. unfold wf_height, LOCK_TIME_THRESHOLD in W. lia.
    + intros j Hj Nj. specialize (Hn j Hj Nj). destruct (in_min_height j) as [x|] eqn:Ex; [|congruence]. eauto.
  - right. left. subst n. destruct G as [(k & Hk & Hh) Hm]. split.
    + destruct (Hwf k Hk) as [W _]. rewrite Hh in W. cbn in W. unfold wf_time, LOCK_TIME_THRESHOLD in W. lia.
    + intros j Hj Nj. specialize (Hn j Hj Nj). destruct (in_min_time j) as [x|] eqn:Ex; [|congruence]. eauto.
Qed.

(** ** Funding and fee *)

Lemma funding_ok_iff i u : input_funding_utxo i = Ok u <-> funds i u.
Proof.
  unfold input_funding_utxo, funds. destruct (in_witness_utxo i) as [w|].
  - split; [intros H; inj H; now left|]. intros [H|[H _]]; congruence.
  - destruct (in_non_witness_utxo i) as [t|].
    + rewrite nth_N_nth. destruct (nth_error (tx_output t) (N.to_nat (in_spent_output_index i))) eqn:E; cbn [ok_or]; split.
      * intros H; inj H. right. split; eauto.
      * intros [H|[_ (t' & Ht & Hn)]]; congruence.
      * discriminate.
      * intros [H|[_ (t' & Ht & Hn)]]; congruence.
    + split; [discriminate|]. intros [H|[_ (t' & Ht & Hn)]]; congruence.
Qed.

Lemma funding_missing_iff i : input_funding_utxo i = Err FMissingUtxo <-> in_witness_utxo i = None /\ in_non_witness_utxo i = None.
Proof.
  unfold input_funding_utxo. destruct (in_witness_utxo i); [split; [discriminate|intros [? _]; congruence]|].
  destruct (in_non_witness_utxo i) as [t|]; [|tauto].
  destruct (nth_N _ _); cbn [ok_or]; (split; [discriminate|intros [_ ?]; congruence]).
Qed.
Lemma funding_oob_iff i v n : input_funding_utxo i = Err (FOutOfBounds v n) <->
  in_witness_utxo i = None /\ exists t, in_non_witness_utxo i = Some t /\ blen (tx_output t) <= in_spent_output_index i
    /\ v = in_spent_output_index i /\ n = blen (tx_output t).
Proof.
  unfold input_funding_utxo. destruct (in_witness_utxo i); [split; [discriminate|intros [? _]; congruence]|].
  destruct (in_non_witness_utxo i) as [t|].
  - destruct (nth_N (tx_output t) (in_spent_output_index i)) eqn:E; cbn [ok_or]; split.
    + discriminate.
    + intros [_ (t' & Ht & Hle & _)]. injection Ht as <-. apply nth_N_none in Hle. congruence.
    + intros [= <- <-]. split; auto. exists t. repeat split; auto. now apply nth_N_none.
    + intros [_ (t' & Ht & Hle & -> & ->)]. now injection Ht as <-.
  - split; [discriminate|]. intros [_ (t' & Ht & _)]. discriminate.
Qed.
Lemma funding_nopanic i : input_funding_utxo i <> Panic.
Proof.
  unfold input_funding_utxo. destruct (in_witness_utxo i); [discriminate|].
  destruct (in_non_witness_utxo i); [|discriminate]. destruct (nth_N _ _); discriminate.
Qed.

Lemma total_cons a l : total (a :: l) = a + total l.
Proof. reflexivity. Qed.
Lemma total_app a b : total (a ++ b) = total a + total b.
Proof. induction a as [|x a IH]; [reflexivity|]. cbn [app]. rewrite !total_cons, IH. lia. Qed.

(** The outcome of a checked sum. *)
Lemma checked_sum_spec {E} (ov : E) (l : list (res E N)) : Forall (fun r => r <> Panic) l -> forall acc, acc < U64 ->
  match checked_sum ov acc l with
  | Ok s => exists vs, l = map Ok vs /\ s = acc + total vs /\ s < U64
  | Err e => exists vs r l2, l = map Ok vs ++ r :: l2 /\ acc + total vs < U64 /\
      (r = Err e \/ e = ov /\ exists v, r = Ok v /\ U64 <= acc + total vs + v)
  | Panic => False
  end.
Proof.
  induction 1 as [|r l Hr Hl IH]; intros acc Ha; cbn [checked_sum].
  - exists []. cbn. repeat split; auto. lia.
  - destruct r as [v|e|]; cbn [bind]; [| |tauto].
    + destruct (acc + v <? U64) eqn:E1.
      * specialize (IH (acc + v)). destruct (checked_sum ov (acc + v) l) as [s|e|].
        -- destruct IH as (vs & -> & -> & Hs); [lia|]. exists (v :: vs). rewrite total_cons. repeat split; auto. lia.
        -- destruct IH as (vs & r & l2 & -> & Hs & Hc); [lia|]. exists (v :: vs), r, l2. rewrite total_cons.
           repeat split; auto; [lia|]. destruct Hc as [Hc|(He & x & Hx & Hle)]; [now left|right].
           split; auto. exists x. split; auto. lia.
        -- apply IH. lia.
      * exists [], (Ok v), l. cbn. repeat split; auto; [lia|]. right. split; auto. exists v. split; auto. lia.
    + exists [], (Err e), l. cbn. repeat split; auto. lia.
Qed.

Definition fee_items (l : list input) : list (res feeerr N) :=
  map (fun i => map_err FeeFundingUtxo (u <- input_funding_utxo i ;; Ok (to_value u))) l.

Lemma fee_item_ok i v : map_err FeeFundingUtxo (u <- input_funding_utxo i ;; Ok (to_value u)) = Ok v <->
  exists u, funds i u /\ to_value u = v.
Proof.
  destruct (input_funding_utxo i) as [u|e|] eqn:E; cbn; split.
  - intros H; inj H. exists u. split; auto. now apply funding_ok_iff.
  - intros (u' & Hu & <-). apply funding_ok_iff in Hu. congruence.
  - discriminate.
  - intros (u' & Hu & <-). apply funding_ok_iff in Hu. congruence.
  - discriminate.
  - intros (u' & Hu & <-). apply funding_ok_iff in Hu. congruence.
Qed.
Lemma fee_item_err i e : map_err FeeFundingUtxo (u <- input_funding_utxo i ;; Ok (to_value u)) = Err e <->
  exists e', input_funding_utxo i = Err e' /\ e = FeeFundingUtxo e'.
Proof.
  destruct (input_funding_utxo i) as [u|e0|] eqn:E; cbn; split; try discriminate.
  - intros (? & ? & _). discriminate.
  - intros [= <-]. eauto.
  - intros (? & [= <-] & ->). reflexivity.
  - intros (? & ? & _). discriminate.
Qed.

Lemma fee_items_ok l vs : fee_items l = map Ok vs <-> funded l vs.
Proof.
  revert vs; induction l as [|i l IH]; intros vs; cbn [fee_items map].
  - destruct vs; cbn; split; try discriminate; intros H; auto; try constructor. inversion H.
  - destruct vs as [|v vs]; cbn [map]; [split; [discriminate|intros H; inversion H]|].
    split.
    + intros [= H1 H2]. apply IH in H2. apply fee_item_ok in H1. now constructor.
    + intros H. inversion H as [|? ? ? ? H1 H2]; subst. apply fee_item_ok in H1. apply IH in H2.
      unfold fee_items in H2. rewrite H1. now f_equal.
Qed.

Lemma fee_items_split l vs r l2 : fee_items l = map Ok vs ++ r :: l2 ->
  exists l1 i l3, l = l1 ++ i :: l3 /\ funded l1 vs /\ map_err FeeFundingUtxo (u <- input_funding_utxo i ;; Ok (to_value u)) = r.
Proof.
  revert vs; induction l as [|i l IH]; intros vs; cbn [fee_items map]; intros H.
  - destruct vs; discriminate.
  - destruct vs as [|v vs]; cbn [map app] in H; injection H as H1 H2.
    + exists [], i, l. repeat split; auto. constructor.
    + destruct (IH vs H2) as (l1 & j & l3 & -> & Hf & Hr). exists (i :: l1), j, l3. repeat split; auto.
      constructor; auto. now apply fee_item_ok.
Qed.

Lemma fee_items_nopanic l : Forall (fun r => r <> Panic) (fee_items l).
Proof.
  unfold fee_items. rewrite Forall_map. apply Forall_forall. intros i _.
  pose proof (funding_nopanic i). destruct (input_funding_utxo i); cbn; congruence.
Qed.

Lemma funded_unique l vs vs' : funded l vs -> funded l vs' -> vs = vs'.
Proof.
  intros H1 H2. apply fee_items_ok in H1. apply fee_items_ok in H2. rewrite H1 in H2. clear H1.
  revert vs' H2. induction vs as [|v vs IH]; intros [|v' vs'] H; try discriminate; auto.
  cbn [map] in H. injection H as H1 H2. f_equal; auto.
Qed.

Definition amounts (p : psbt) : list N := map out_amount (p_outputs p).

Lemma psbt_fee_spec p :
  match psbt_fee p with
  | Ok f => exists vs, funded (p_inputs p) vs /\ total vs < U64 /\ total (amounts p) < U64 /\ total vs = total (amounts p) + f
  | Err (FeeFundingUtxo e) => exists l1 i l2 vs, p_inputs p = l1 ++ i :: l2 /\ funded l1 vs /\ total vs < U64 /\
      input_funding_utxo i = Err e
  | Err FeeInputOverflow => exists l1 i l2 vs u, p_inputs p = l1 ++ i :: l2 /\ funded l1 vs /\ total vs < U64 /\
      funds i u /\ U64 <= total vs + to_value u
  | Err FeeOutputOverflow => exists vs, funded (p_inputs p) vs /\ total vs < U64 /\ U64 <= total (amounts p)
  | Err FeeNegative => exists vs, funded (p_inputs p) vs /\ total vs < U64 /\ total (amounts p) < U64 /\
      total vs < total (amounts p)
  | Panic => False
  end.
Proof.
  unfold psbt_fee, psbt_funding_utxos. rewrite map_map. fold (fee_items (p_inputs p)).
  pose proof (checked_sum_spec FeeInputOverflow (fee_items (p_inputs p)) (fee_items_nopanic _) 0) as H.
  destruct (checked_sum FeeInputOverflow 0 (fee_items (p_inputs p))) as [s|e|]; cbn [bind].
  - destruct H as (vs & Hv & -> & Hs); [reflexivity|]. apply fee_items_ok in Hv. rewrite N.add_0_l in *.
    assert (Ho : Forall (fun r => r <> Panic) (map (fun o => @Ok feeerr N (out_amount o)) (p_outputs p))).
    { rewrite Forall_map. apply Forall_forall. discriminate. }
    pose proof (checked_sum_spec FeeOutputOverflow _ Ho 0) as H. clear Ho.
    destruct (checked_sum FeeOutputOverflow 0 _) as [s|e|]; cbn [bind].
    + destruct H as (ws & Hw & -> & Hs'); [reflexivity|]. rewrite N.add_0_l in *.
      assert (ws = amounts p) as ->.
      { unfold amounts. clear -Hw. revert ws Hw. induction (p_outputs p) as [|o l IH]; intros [|w ws]; cbn [map]; try discriminate; auto.
        intros [= -> H]. f_equal. now apply IH. }
      destruct (total (amounts p) <=? total vs) eqn:E.
      * exists vs. repeat split; auto. lia.
      * exists vs. repeat split; auto. lia.
    + destruct H as (ws & r & l2 & Hw & Hs' & Hc); [reflexivity|].
      assert (Hamt : forall (ls : list output) ws r l2, map (fun o => @Ok feeerr N (out_amount o)) ls = map Ok ws ++ r :: l2 ->
               exists v, r = Ok v /\ total (map out_amount ls) >= total ws + v).
      { clear. induction ls as [|o ls IH]; intros ws r l2 H; cbn [map] in *; [destruct ws; discriminate|].
        destruct ws as [|w ws]; cbn [map app] in H; injection H as H1 H2.
        - subst r. exists (out_amount o). split; auto. cbn. lia.
        - destruct (IH _ _ _ H2) as (v & Hv & Hle). exists v. split; auto. rewrite !total_cons. lia. }
      destruct (Hamt _ _ _ _ Hw) as (v & -> & Hle). destruct Hc as [Hc|(-> & x & Hx & Hov)]; [discriminate|].
      injection Hx as <-. exists vs. repeat split; auto. unfold amounts. lia.
    + apply H. reflexivity.
  - destruct H as (vs & r & l2 & Hl & Hs & Hc); [reflexivity|]. rewrite !N.add_0_l in *.
    apply fee_items_split in Hl as (l1 & i & l3 & Hl & Hf & Hr).
    destruct Hc as [->|(-> & v & -> & Hov)].
    + apply fee_item_err in Hr as (e' & He & ->). exists l1, i, l3, vs. auto.
    + apply fee_item_ok in Hr as (u & Hu & <-). exists l1, i, l3, vs, u. auto.
  - apply H. reflexivity.
Qed.

(** ** Id and unsigned transaction *)

Lemma Forall2_map_eq {A B} (f : A -> B) l l' : Forall2 (fun a b => f a = f b) l l' -> map f l = map f l'.
Proof. induction 1; cbn; congruence. Qed.
Lemma map_eq_Forall2 {A B} (f : A -> B) l l' : map f l = map f l' -> Forall2 (fun a b => f a = f b) l l'.
Proof.
  revert l'; induction l as [|a l IH]; intros [|b l'] H; try discriminate; constructor; cbn in H.
  - congruence.
  - apply IH. congruence.
Qed.

Lemma Forall2_impl {A B} (P Q : A -> B -> Prop) l l' :
  (forall a b, P a b -> Q a b) -> Forall2 P l l' -> Forall2 Q l l'.
Proof. intros H F. induction F; constructor; auto. Qed.

Lemma existsb_map {A B} (f : A -> B) g l : existsb g (map f l) = existsb (fun a => g (f a)) l.
Proof. induction l; cbn; congruence. Qed.
Lemma forallb_map {A B} (f : A -> B) g l : forallb g (map f l) = forallb (fun a => g (f a)) l.
Proof. induction l; cbn; congruence. Qed.

(** The lock time depends on the lock time fields only. *)
Definition lock_fields (i : input) := (in_min_time i, in_min_height i).
Definition lock_of (fallback : option N) (l : list (option N * option N)) : res dlterr N :=
  let require_time := existsb (fun i => is_some (fst i) && is_none (snd i)) l in
  let require_height := existsb (fun i => is_some (snd i) && is_none (fst i)) l in
  if require_time && require_height then Err DetermineLockTimeError
  else if existsb (fun i => is_some (fst i) || is_some (snd i)) l then
    if forallb (fun i => is_some (snd i) && is_none (fst i) || is_some (fst i) && is_some (snd i)
                         || is_none (fst i) && is_none (snd i)) l then
      m <- expect (iter_max (map snd l)) ;; expect m
    else m <- expect (iter_max (map fst l)) ;; expect m
  else Ok (opt_default 0 fallback).
Lemma determine_lock_of p :
  determine_lock_time p = lock_of (g_fallback_lock_time (p_global p)) (map lock_fields (p_inputs p)).
Proof.
  unfold determine_lock_time, lock_of. rewrite !existsb_map, forallb_map, !map_map. reflexivity.
Qed.

Lemma determine_ext p q :
  g_fallback_lock_time (p_global p) = g_fallback_lock_time (p_global q) ->
  map lock_fields (p_inputs p) = map lock_fields (p_inputs q) -> determine_lock_time p = determine_lock_time q.
Proof. intros H1 H2. now rewrite !determine_lock_of, H1, H2. Qed.

Section Id.
Context `{X : Ext} `{C : Cfg}.

Lemma unsigned_tx_ok p n : determine_lock_time p = Ok n ->
  unsigned_tx p = Ok (Tx (g_tx_version (p_global p)) n (map input_unsigned_tx_in (p_inputs p)) (map output_tx_out (p_outputs p))).
Proof. intros H. unfold unsigned_tx. rewrite H. reflexivity. Qed.

(** The transaction whose hash is the id. *)
Definition id_tx (version lock : N) (ops : list (bytes * N)) (outs : list (N * bytes)) : tx :=
  Tx version lock (map (fun op => TxIn (fst op) (snd op) [] SEQ_ZERO []) ops) (map (fun o => TxOut (fst o) (snd o)) outs).
Lemma psbt_id_ok p n : determine_lock_time p = Ok n ->
  psbt_id p = Ok (sha256d (enc_tx_nowit (id_tx (g_tx_version (p_global p)) n (map outpoint_of (p_inputs p))
                                               (map payment_of (p_outputs p))))).
Proof.
  intros H. unfold psbt_id. rewrite (unsigned_tx_ok _ _ H). cbn [bind]. unfold compute_txid, zero_sequences, id_tx.
  cbn [tx_version tx_lock_time tx_input tx_output]. rewrite !map_map. reflexivity.
Qed.
Lemma psbt_id_cases p :
  psbt_id p = match determine_lock_time p with
              | Ok n => Ok (sha256d (enc_tx_nowit (id_tx (g_tx_version (p_global p)) n (map outpoint_of (p_inputs p))
                                               (map payment_of (p_outputs p)))))
              | Err e => Err e
              | Panic => Panic
              end.
Proof.
  destruct (determine_lock_time p) eqn:E; [now apply psbt_id_ok| |]; unfold psbt_id, unsigned_tx; now rewrite E.
Qed.

Lemma psbt_id_data p q :
  determine_lock_time p = determine_lock_time q -> g_tx_version (p_global p) = g_tx_version (p_global q) ->
  map outpoint_of (p_inputs p) = map outpoint_of (p_inputs q) ->
  map payment_of (p_outputs p) = map payment_of (p_outputs q) -> psbt_id p = psbt_id q.
Proof. intros H1 H2 H3 H4. now rewrite !psbt_id_cases, H1, H2, H3, H4. Qed.

Lemma same_tx_fields_lock p q : same_tx_fields p q -> determine_lock_time p = determine_lock_time q.
Proof.
  intros (_ & H2 & H3 & _). apply determine_ext; auto. apply Forall2_map_eq.
  eapply Forall2_impl; [|exact H3]. intros i j (_ & H & H'). unfold lock_fields. congruence.
Qed.
Lemma psbt_id_same p q : same_tx_fields p q -> psbt_id p = psbt_id q.
Proof.
  intros H. pose proof (same_tx_fields_lock _ _ H) as Hl. destruct H as (H1 & H2 & H3 & H4). apply psbt_id_data; auto.
  - apply Forall2_map_eq. eapply Forall2_impl; [|exact H3]. intros i j (H & _). exact H.
  - now apply Forall2_map_eq.
Qed.

Lemma concat_enc_all {A} (f : A -> bytes) l : concat (map f l) = enc_all f l.
Proof. reflexivity. Qed.

Lemma compact_size_unique n c c' : compact_size n c -> compact_size n c' -> c = c'.
Proof. intros H H'. apply compact_size_enc in H as [-> _]. apply compact_size_enc in H' as [-> _]. reflexivity. Qed.

Lemma id_preimage_enc version lock ops outs :
  blen ops < 2 ^ 64 -> blen outs < 2 ^ 64 -> Forall (fun o : N * bytes => blen (snd o) < 2 ^ 64) outs ->
  id_preimage version lock ops outs (enc_tx_nowit (id_tx version lock ops outs)).
Proof.
  intros H1 H2 H3. exists (enc_varint (blen ops)), (enc_varint (blen outs)),
    (map (fun o => le_enc 8 (fst o) ++ enc_varint (blen (snd o)) ++ snd o) outs).
  split; [now apply enc_varint_spec|]. split; [now apply enc_varint_spec|]. split.
  - clear H2. induction H3 as [|o l Ho Hl IH]; cbn [map]; constructor; auto.
    exists (enc_varint (blen (snd o))). split; auto. now apply enc_varint_spec.
  - unfold enc_tx_nowit, id_tx, enc_vec. cbn [tx_version tx_lock_time tx_input tx_output].
    rewrite !blen_map, <- !app_assoc. unfold enc_u32. f_equal. f_equal. f_equal.
    + unfold enc_all. rewrite map_map. f_equal. 
    + f_equal. f_equal. unfold enc_all. rewrite map_map. f_equal.
Qed.

Lemma id_preimage_inj v n ops outs v' n' ops' outs' b :
  v < 2 ^ 32 -> n < 2 ^ 32 -> v' < 2 ^ 32 -> n' < 2 ^ 32 ->
  Forall (fun op : bytes * N => length (fst op) = 32%nat /\ snd op < 2 ^ 32) ops ->
  Forall (fun op : bytes * N => length (fst op) = 32%nat /\ snd op < 2 ^ 32) ops' ->
  Forall (fun o : N * bytes => fst o < 2 ^ 64) outs -> Forall (fun o : N * bytes => fst o < 2 ^ 64) outs' ->
  id_preimage v n ops outs b -> id_preimage v' n' ops' outs' b -> v = v' /\ n = n' /\ ops = ops' /\ outs = outs'.
Proof.
  intros Hv Hn Hv' Hn' Ho Ho' Hu Hu' P P'.
  assert (A : forall v n ops outs b, id_preimage v n ops outs b ->
     b = enc_tx_nowit (id_tx v n ops outs) /\ blen ops < 2 ^ 64 /\ blen outs < 2 ^ 64 /\ Forall (fun o : N * bytes => blen (snd o) < 2 ^ 64) outs).
  { clear. intros v n ops outs b (ci & co & ss & H1 & H2 & H3 & ->).
    apply compact_size_enc in H1 as [-> H1]. apply compact_size_enc in H2 as [-> H2].
    assert (H4 : Forall (fun o : N * bytes => blen (snd o) < 2 ^ 64) outs /\
                 ss = map (fun o => le_enc 8 (fst o) ++ enc_varint (blen (snd o)) ++ snd o) outs).
    { clear -H3. induction H3 as [|o s l l' (c & Hc & ->) H IH]; [auto|]. destruct IH as [IH ->].
      apply compact_size_enc in Hc as [-> Hc]. auto. }
    destruct H4 as [H4 ->]. repeat split; auto.
    unfold enc_tx_nowit, id_tx, enc_vec. cbn [tx_version tx_lock_time tx_input tx_output].
    rewrite !blen_map, <- !app_assoc. unfold enc_all. rewrite !map_map. reflexivity. }
  apply A in P as (-> & Hb1 & Hb2 & Hb3). apply A in P' as (E & Hb1' & Hb2' & Hb3'). clear A.
  assert (W : forall v n ops outs, v < 2 ^ 32 -> n < 2 ^ 32 ->
     Forall (fun op : bytes * N => length (fst op) = 32%nat /\ snd op < 2 ^ 32) ops ->
     Forall (fun o : N * bytes => fst o < 2 ^ 64) outs -> blen ops < 2 ^ 64 -> blen outs < 2 ^ 64 ->
     Forall (fun o : N * bytes => blen (snd o) < 2 ^ 64) outs ->
     Forall wf_txin0 (tx_input (id_tx v n ops outs)) /\ Forall wf_txout (tx_output (id_tx v n ops outs))).
  { clear. intros v n ops outs _ _ H1 H2 _ _ H3. cbn [id_tx tx_input tx_output]. rewrite !Forall_map. split.
    - eapply Forall_impl; [|exact H1]. intros op [Hl Hi]. unfold wf_txin0, wf_txin. cbn.
      repeat split; auto; unfold wf_u32, wf_vec; cbn; unfold SEQ_ZERO, U32, U64; try lia. apply wf_witness_nil.
    - rewrite Forall_forall in *. intros o Hin. specialize (H2 o Hin). specialize (H3 o Hin). cbn in *.
      unfold wf_txout, wf_u64, wf_vec, U64. cbn. split; lia. }
  destruct (W v n ops outs) as [Wi Wo]; auto. destruct (W v' n' ops' outs') as [Wi' Wo']; auto. clear W.
  unfold enc_tx_nowit in E. unfold enc_u32 in E.
  apply app_inv_len in E as [E1 E]; [|now rewrite !le_enc_length]. apply le_enc_inj in E1; [|exact Hv|exact Hv'].
  cbn [id_tx tx_version tx_lock_time] in E1. 
  set (i1 := tx_input (id_tx v n ops outs)) in *. set (i2 := tx_input (id_tx v' n' ops' outs')) in *.
  set (o1 := tx_output (id_tx v n ops outs)) in *. set (o2 := tx_output (id_tx v' n' ops' outs')) in *.
  assert (L1 : wf_vec i1 /\ Forall wf_txin0 i1). { split; auto. unfold wf_vec, i1. cbn [id_tx tx_input]. rewrite blen_map. exact Hb1. }
  assert (L2 : wf_vec i2 /\ Forall wf_txin0 i2). { split; auto. unfold wf_vec, i2. cbn [id_tx tx_input]. rewrite blen_map. exact Hb1'. }
  assert (L3 : wf_vec o1 /\ Forall wf_txout o1). { split; auto. unfold wf_vec, o1. cbn [id_tx tx_output]. rewrite blen_map. exact Hb2. }
  assert (L4 : wf_vec o2 /\ Forall wf_txout o2). { split; auto. unfold wf_vec, o2. cbn [id_tx tx_output]. rewrite blen_map. exact Hb2'. }
  pose proof (dec_txins_rt i1 (enc_vec enc_txout o1 ++ le_enc 4 (tx_lock_time (id_tx v n ops outs))) L1) as D1.
  rewrite E, (dec_txins_rt i2 _ L2) in D1. apply Ok_inj, pair_equal_spec in D1 as [Ei Er].
  pose proof (dec_txouts_rt o1 (le_enc 4 (tx_lock_time (id_tx v n ops outs))) L3) as D2.
  rewrite <- Er, (dec_txouts_rt o2 _ L4) in D2. apply Ok_inj, pair_equal_spec in D2 as [Eo El].
  cbn [id_tx tx_lock_time] in El. apply le_enc_inj in El; [|exact Hn'|exact Hn].
  repeat split; auto.
  - unfold i1, i2 in Ei. cbn [id_tx tx_input] in Ei. clear -Ei. revert ops Ei.
    induction ops' as [|[a k] l IH]; intros [|[a' k'] l'] H; try discriminate; auto.
    cbn [map] in H. injection H as -> -> H. f_equal. auto.
  - unfold o1, o2 in Eo. cbn [id_tx tx_output] in Eo. clear -Eo. revert outs Eo.
    induction outs' as [|[a k] l IH]; intros [|[a' k'] l'] H; try discriminate; auto.
    cbn [map] in H. injection H as -> -> H. f_equal. auto.
Qed.

End Id.

(** ** Updating an element *)

Lemma set_nth_length {A} (a : A) l : forall n, length (set_nth n a l) = length l.
Proof. induction l as [|b l IH]; intros [|n]; cbn; auto. Qed.
Lemma set_nth_same {A} (a : A) l : forall n, (n < length l)%nat -> nth_error (set_nth n a l) n = Some a.
Proof. induction l as [|b l IH]; intros [|n] H; cbn in *; try lia; auto. apply IH. lia. Qed.
Lemma set_nth_other {A} (a : A) l : forall n m, n <> m -> nth_error (set_nth n a l) m = nth_error l m.
Proof. induction l as [|b l IH]; intros [|n] [|m] H; cbn; try congruence; auto. Qed.
Lemma set_nth_map {A B} (f : A -> B) a l : forall n b, nth_error l n = Some b -> f a = f b -> map f (set_nth n a l) = map f l.
Proof.
  induction l as [|c l IH]; intros [|n] b H E; cbn in *; try congruence.
  f_equal. eapply IH; eauto.
Qed.

Lemma set_sequence_cases n k p :
  updater_set_sequence n k p =
    if blen (p_inputs p) <=? k then Err (IdxInputs k (blen (p_inputs p)))
    else if g_input_count (p_global p) <=? k then Err (IdxCount k (g_input_count (p_global p)))
    else match nth_error (p_inputs p) (N.to_nat k) with
         | Some i => Ok (Psbt (p_global p) (set_nth (N.to_nat k) (set_in_sequence (Some n) i) (p_inputs p)) (p_outputs p))
         | None => Panic
         end.
Proof.
  unfold updater_set_sequence, checked_input, check_input_index, fail_if.
  destruct (blen (p_inputs p) <=? k); cbn; auto. destruct (g_input_count (p_global p) <=? k); cbn; auto.
  rewrite nth_N_nth. destruct (nth_error (p_inputs p) (N.to_nat k)); cbn; auto.
Qed.

Lemma set_sequence_ok n k p q : updater_set_sequence n k p = Ok q ->
  exists i, nth_error (p_inputs p) (N.to_nat k) = Some i /\ k < blen (p_inputs p) /\ k < g_input_count (p_global p) /\
    q = Psbt (p_global p) (set_nth (N.to_nat k) (set_in_sequence (Some n) i) (p_inputs p)) (p_outputs p).
Proof.
  rewrite set_sequence_cases. destruct (N.leb_spec (blen (p_inputs p)) k); [discriminate|].
  destruct (N.leb_spec (g_input_count (p_global p)) k); [discriminate|].
  destruct (nth_error (p_inputs p) (N.to_nat k)) as [i|]; [|discriminate]. intros E. inj E. exists i. auto.
Qed.

Lemma set_sequence_same n k p q : updater_set_sequence n k p = Ok q -> same_tx_fields p q.
Proof.
  intros H. apply set_sequence_ok in H as (i & Hi & _ & _ & ->). repeat split; cbn [p_global p_inputs p_outputs]; auto.
  - assert (E : map (fun j => (outpoint_of j, in_min_time j, in_min_height j)) (p_inputs p) =
            map (fun j => (outpoint_of j, in_min_time j, in_min_height j)) (set_nth (N.to_nat k) (set_in_sequence (Some n) i) (p_inputs p))).
    { symmetry. eapply set_nth_map; [exact Hi|reflexivity]. }
    apply map_eq_Forall2 in E. eapply Forall2_impl; [|exact E]. cbn. intros a b [= H1 H2 H3 H4]. unfold outpoint_of. repeat split; congruence.
  - apply map_eq_Forall2. reflexivity.
Qed.

Lemma clear_flags_same ty p : same_tx_fields p (clear_tx_modifiable ty p).
Proof.
  unfold clear_tx_modifiable, same_tx_fields. cbn [set_p_global p_global p_inputs p_outputs].
  repeat split.
  - repeat destruct (_ || _); reflexivity.
  - repeat destruct (_ || _); reflexivity.
  - eapply Forall2_impl; [|apply (map_eq_Forall2 (fun x => x)); reflexivity]. intros a b ->. auto.
  - apply map_eq_Forall2. reflexivity.
Qed.

(** ** Flags *)

Lemma testbit_ldiff_pow2 f k n : N.testbit (N.ldiff f (2 ^ k)) n = N.testbit f n && negb (n =? k).
Proof. rewrite N.ldiff_spec, N.pow2_bits_eqb. now rewrite N.eqb_sym. Qed.
Lemma testbit_lor_pow2 f k n : N.testbit (N.lor f (2 ^ k)) n = N.testbit f n || (n =? k).
Proof. rewrite N.lor_spec, N.pow2_bits_eqb. now rewrite N.eqb_sym. Qed.
Lemma land_pow2_pos f k : (0 <? N.land f (2 ^ k)) = N.testbit f k.
Proof.
  destruct (N.testbit f k) eqn:E.
  - apply N.ltb_lt. assert (N.land f (2 ^ k) <> 0); [|lia]. intros H.
    assert (T : N.testbit (N.land f (2 ^ k)) k = false) by (rewrite H; apply N.bits_0).
    rewrite N.land_spec, E, N.pow2_bits_true in T. discriminate.
  - apply N.ltb_ge. assert (N.land f (2 ^ k) = 0); [|lia]. apply N.bits_inj. intros n. rewrite N.land_spec, N.bits_0, N.pow2_bits_eqb.
    destruct (N.eqb_spec k n); [subst; now rewrite E|apply andb_false_r].
Qed.

Lemma clear_inputs_bits g n : N.testbit (g_tx_modifiable_flags (clear_inputs_modifiable_flag g)) n
  = N.testbit (g_tx_modifiable_flags g) n && negb (n =? 0).
Proof. exact (testbit_ldiff_pow2 _ 0 n). Qed.
Lemma clear_outputs_bits g n : N.testbit (g_tx_modifiable_flags (clear_outputs_modifiable_flag g)) n
  = N.testbit (g_tx_modifiable_flags g) n && negb (n =? 1).
Proof. exact (testbit_ldiff_pow2 _ 1 n). Qed.
Lemma set_inputs_bits g n : N.testbit (g_tx_modifiable_flags (set_inputs_modifiable_flag g)) n
  = N.testbit (g_tx_modifiable_flags g) n || (n =? 0).
Proof. exact (testbit_lor_pow2 _ 0 n). Qed.
Lemma set_outputs_bits g n : N.testbit (g_tx_modifiable_flags (set_outputs_modifiable_flag g)) n
  = N.testbit (g_tx_modifiable_flags g) n || (n =? 1).
Proof. exact (testbit_lor_pow2 _ 1 n). Qed.
Lemma set_single_bits g n : N.testbit (g_tx_modifiable_flags (set_sighash_single_flag g)) n
  = N.testbit (g_tx_modifiable_flags g) n || (n =? 2).
Proof. exact (testbit_lor_pow2 _ 2 n). Qed.
Lemma is_inputs_bit g : is_inputs_modifiable g = N.testbit (g_tx_modifiable_flags g) 0.
Proof. exact (land_pow2_pos _ 0). Qed.
Lemma is_outputs_bit g : is_outputs_modifiable g = N.testbit (g_tx_modifiable_flags g) 1.
Proof. exact (land_pow2_pos _ 1). Qed.
Lemma has_single_bit g : has_sighash_single g = N.testbit (g_tx_modifiable_flags g) 2.
Proof. exact (land_pow2_pos _ 2). Qed.

Lemma clear_tx_bits ty p n : N.testbit (g_tx_modifiable_flags (p_global (clear_tx_modifiable ty p))) n =
  let old := N.testbit (g_tx_modifiable_flags (p_global p)) n in
  if n =? 0 then old && ((ty =? 129) || (ty =? 130) || (ty =? 131))
  else if n =? 1 then old && ((ty =? 2) || (ty =? 130))
  else if n =? 2 then old || (ty =? 3) || (ty =? 131)
  else old.
Proof.
  unfold clear_tx_modifiable. cbn [set_p_global p_global].
  destruct ((ty =? 129) || (ty =? 130) || (ty =? 131)); destruct ((ty =? 2) || (ty =? 130));
  rewrite <- !orb_assoc; destruct ((ty =? 3) || (ty =? 131));
  rewrite ?set_single_bits, ?clear_outputs_bits, ?clear_inputs_bits; cbv zeta;
  destruct (N.eqb_spec n 0) as [->|]; try (cbn [N.eqb]; btauto);
  destruct (N.eqb_spec n 1) as [->|]; try (cbn [N.eqb Pos.eqb]; btauto);
  destruct (N.eqb_spec n 2) as [->|]; btauto.
Qed.

(** Everything but the flags byte is untouched. *)
Lemma clear_tx_rest ty p : exists f,
  clear_tx_modifiable ty p = Psbt (set_g_tx_modifiable_flags f (p_global p)) (p_inputs p) (p_outputs p).
Proof.
  unfold clear_tx_modifiable, set_p_global. repeat destruct (_ || _); eexists; try reflexivity.
  instantiate (1 := g_tx_modifiable_flags (p_global p)). destruct (p_global p); reflexivity.
Qed.

(** ** Construction *)

Section Construction.
Context `{X : Ext} `{C : Cfg}.

Lemma incr_ok n m : incr n = Ok (E := Empty_set) m -> n + 1 < U64 -> m = n + 1.
Proof. unfold incr. intros H Hn. binds H. inj H. apply N.mod_small. exact Hn. Qed.

Lemma constructor_new_iff k p q : constructor_new k p = Ok q <->
  q = p /\ (takes_inputs k -> N.testbit (g_tx_modifiable_flags (p_global p)) 0 = true)
        /\ (takes_outputs k -> N.testbit (g_tx_modifiable_flags (p_global p)) 1 = true).
Proof.
  unfold constructor_new, takes_inputs, takes_outputs. rewrite <- is_inputs_bit, <- is_outputs_bit.
  destruct k, (is_inputs_modifiable (p_global p)), (is_outputs_modifiable (p_global p)); cbn [negb];
    (split; [intros H; first [discriminate|inj H; repeat split; intros; intuition congruence]|intros (-> & H1 & H2)]);
    try reflexivity; exfalso; try (specialize (H1 (or_introl eq_refl)); discriminate);
    try (specialize (H1 (or_intror eq_refl)); discriminate); try (specialize (H2 (or_introl eq_refl)); discriminate);
    try (specialize (H2 (or_intror eq_refl)); discriminate).
Qed.

Lemma built_counts s p is os : built s p is os -> blen is < U64 -> blen os < U64 ->
  p_inputs p = is /\ p_outputs p = os /\ g_input_count (p_global p) = blen is /\ g_output_count (p_global p) = blen os.
Proof.
  induction 1 as [ | | | | | | |k p is os H IH|k p q is os H IH E|k i p q is os Hk H IH E|k o p q is os Hk H IH E| | |k p q is os H IH E|k p q is os H IH E];
    intros Li Lo; cbn [p_inputs p_outputs p_global] in *; auto.
  - destruct k; cbn; auto.
  - apply constructor_new_iff in E as [-> _]. auto.
  - rewrite blen_app, blen_cons, blen_nil in *. destruct IH as (<- & <- & H1 & H2); [lia|lia|].
    unfold constructor_input in E. binds E. inj E. cbn [p_inputs p_outputs p_global]. apply incr_ok in Hx; [|lia]. subst x.
    repeat split; auto. cbn. lia.
  - rewrite blen_app, blen_cons, blen_nil in *. destruct IH as (<- & <- & H1 & H2); [lia|lia|].
    unfold constructor_output in E. binds E. inj E. cbn [p_inputs p_outputs p_global]. apply incr_ok in Hx; [|lia]. subst x.
    repeat split; auto. cbn. lia.
  - unfold constructor_psbt in E. binds E. inj E. auto.
  - unfold constructor_updater, constructor_psbt in E. binds E. inj E. cbn. auto.
Qed.

Lemma updater_value_lock p : updater_value p -> exists n, determine_lock_time p = Ok n.
Proof.
  induction 1 as [p q E|p q E|n k p q H IH E].
  - unfold updater_new in E. binds E. inj E. eauto.
  - unfold constructor_updater, constructor_psbt in E. binds E. inj E. eauto.
  - destruct IH as [m IH]. exists m. rewrite <- IH. symmetry. eapply same_tx_fields_lock, set_sequence_same, E.
Qed.
Lemma signer_value_lock p : signer_value p -> exists n, determine_lock_time p = Ok n.
Proof.
  induction 1 as [p q E|ty p H [m IH]].
  - unfold signer_new in E. binds E. inj E. eauto.
  - exists m. rewrite <- IH. symmetry. apply same_tx_fields_lock, clear_flags_same.
Qed.

(** ** Extraction *)

Lemma finalized_spec i : input_is_finalized i = true <-> finalized i.
Proof. unfold input_is_finalized, finalized. now rewrite andb_true_iff, !is_some_spec. Qed.

Lemma extractor_new_ok p q : extractor_new p = Ok q <->
  q = p /\ Forall finalized (p_inputs p) /\ exists n, bip370_lock_time p (Some n).
Proof.
  unfold extractor_new, fail_if. destruct (existsb (fun i => negb (input_is_finalized i)) (p_inputs p)) eqn:E; cbn [bind].
  - split; [discriminate|]. intros (_ & F & _). apply existsb_exists in E as (i & Hi & Hn).
    rewrite Forall_forall in F. apply F, finalized_spec in Hi. rewrite Hi in Hn. discriminate.
  - rewrite existsb_false in E. assert (F : Forall finalized (p_inputs p)).
    { apply Forall_forall. intros i Hi. apply finalized_spec. specialize (E i Hi). now apply negb_false_iff. }
    destruct (determine_lock_time p) as [n|e|] eqn:D; cbn [map_err bind].
    + split; [intros H; inj H; repeat split; auto; exists n; now apply determine_ok_iff|]. intros (-> & _). reflexivity.
    + split; [discriminate|]. intros (_ & _ & n & Hn). apply determine_ok_iff in Hn. congruence.
    + now apply determine_nopanic in D.
Qed.
Lemma extractor_new_nopanic p : extractor_new p <> Panic.
Proof.
  unfold extractor_new, fail_if. destruct (existsb _ _); cbn [bind]; [discriminate|].
  pose proof (determine_nopanic p). destruct (determine_lock_time p); cbn; congruence.
Qed.

Lemma signed_inputs_ok {E} l : Forall finalized l -> exists ts, signed_inputs (E := E) l = Ok ts /\
  Forall2 (fun i ti => (ti_txid ti, ti_vout ti) = outpoint_of i
    /\ in_final_script_sig i = Some (ti_script_sig ti) /\ in_final_script_witness i = Some (ti_witness ti)
    /\ ti_sequence ti = match in_sequence i with Some n => n | None => 2 ^ 32 - 1 end) l ts.
Proof.
  induction 1 as [|i l Hi Hl (ts & IH & IF)]; [exists []; split; [reflexivity|constructor]|].
  cbn [signed_inputs]. unfold input_signed_tx_in.
  pose proof Hi as Hb. apply finalized_spec in Hb. rewrite Hb, orb_true_r. cbn [panic_unless bind].
  destruct Hi as [H1 H2]. destruct (in_final_script_sig i) as [s|] eqn:Es; [|congruence].
  destruct (in_final_script_witness i) as [w|] eqn:Ew; [|congruence]. cbn [expect bind]. rewrite IH. cbn [bind].
  eexists. split; [reflexivity|]. constructor; auto.
Qed.

Lemma extract_unchecked_ok p n : Forall finalized (p_inputs p) -> bip370_lock_time p (Some n) ->
  exists t, extract_tx_unchecked p = Ok t /\ extracted p n t.
Proof.
  intros F Hn. unfold extract_tx_unchecked. replace (psbt_is_finalized p) with true.
  2:{ symmetry. unfold psbt_is_finalized. apply forallb_forall. intros i Hi. apply finalized_spec. rewrite Forall_forall in F. auto. }
  cbn [negb fail_if bind]. apply determine_ok_iff in Hn. rewrite Hn. cbn [map_err bind].
  destruct (signed_inputs_ok (E := extracttxerr) (p_inputs p) F) as (ts & -> & H2). cbn [bind].
  eexists. split; [reflexivity|]. split; cbn [tx_version tx_lock_time tx_input tx_output]; auto.
  clear. induction (p_outputs p) as [|o l IH]; cbn; constructor; auto.
Qed.

Lemma extracted_unique p n t t' : extracted p n t -> extracted p n t' -> t = t'.
Proof.
  destruct t as [v k is os], t' as [v' k' is' os']. intros [A1 A2 A3 A4] [B1 B2 B3 B4]. cbn in *. subst. f_equal.
  - clear -A3 B3. revert is' B3. induction A3 as [|i ti l l' H F IH]; intros is' B; inversion B as [|? tj ? ? H' F']; subst; auto.
    f_equal; [|auto]. destruct ti, tj. cbn in *. destruct H as (H1 & H2 & H3 & H4), H' as (H1' & H2' & H3' & H4').
    rewrite <- H1 in H1'. congruence.
  - clear -A4 B4. revert os' B4. induction A4 as [|o ti l l' H F IH]; intros os' B; inversion B as [|? tj ? ? H' F']; subst; auto.
    f_equal; [|auto]. destruct ti, tj. cbn in *. congruence.
Qed.

Lemma tx_weight_pos t : 0 < tx_weight t.
Proof.
  unfold tx_weight, tx_base_size, enc_tx_nowit. rewrite blen_app. unfold blen at 1. rewrite enc_u32_length. lia.
Qed.

Lemma extract_limit_cases m p n : Forall finalized (p_inputs p) -> bip370_lock_time p (Some n) ->
  exists t, extracted p n t /\
    extract_tx_with_fee_rate_limit m p =
      match psbt_fee p with
      | Ok fee => let rate := N.min (fee * 1000) (U64 - 1) / tx_weight t in
                  if m <? rate then Err (EFFeeTooHigh rate m) else Ok t
      | Err e => Err (EFFee e)
      | Panic => Panic
      end.
Proof.
  intros F Hn. destruct (extract_unchecked_ok _ _ F Hn) as (t & Ht & Hx). exists t. split; auto.
  unfold extract_tx_with_fee_rate_limit. destruct (psbt_fee p); cbn [map_err bind]; auto. rewrite Ht. cbn [map_err bind].
  unfold saturating_mul, fail_if. destruct (m <? _); reflexivity.
Qed.

Lemma strip_extracted p n t : extracted p n t -> determine_lock_time p = Ok n ->
  exists u, unsigned_tx p = Ok u /\
    (strip_signatures t = u <-> Forall (fun i => in_sequence i <> None) (p_inputs p)).
Proof.
  intros [A1 A2 A3 A4] D. eexists. split; [exact (unsigned_tx_ok _ _ D)|]. unfold strip_signatures.
  assert (Eo : tx_output t = map output_tx_out (p_outputs p)).
  { clear -A4. induction A4 as [|o [v s] l l' H F IH]; cbn; auto. rewrite IH. unfold output_tx_out. cbn in H. unfold payment_of in H. f_equal. congruence. }
  assert (Ei : map (fun i => TxIn (ti_txid i) (ti_vout i) [] (ti_sequence i) []) (tx_input t) = map input_unsigned_tx_in (p_inputs p)
     <-> Forall (fun i => in_sequence i <> None) (p_inputs p)).
  { clear -A3. induction A3 as [|i ti l l' H F IH]; cbn [map]; [split; auto|].
    destruct H as (H1 & _ & _ & H4). unfold outpoint_of in H1. injection H1 as H1 H1'. split.
    - intros [= _ _ E E']. constructor; [|now apply IH]. intros N. rewrite H4, N in E. cbn in E. discriminate.
    - intros Q. inversion Q as [|? ? Q1 Q2]; subst. apply IH in Q2. rewrite Q2. f_equal. unfold input_unsigned_tx_in.
      rewrite H1, H1', H4. destruct (in_sequence i); [reflexivity|congruence]. }
  rewrite Eo, A1, A2. split.
  - intros [= H]. now apply Ei.
  - intros H. apply Ei in H. now rewrite H.
Qed.

End Construction.
