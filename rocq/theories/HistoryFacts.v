(** Facts about histories. *)
From Verif Require Import Base OMap Consensus Ext Raw TapTree Serialize SerializeFacts V2Global V2Input V2Output V2Psbt V2Roles V2Sign V2Finalize
  SpecRoles SpecPsbt SpecCombine SpecFinalize SpecSign V2PsbtFacts V2CodecFacts V2WireFacts V2RolesFacts V2CombineFacts V2SignFacts
  V2FinalizeFacts SpecBuild BuildFacts SpecHistory UpdateWfFacts PropertiesV2Sign PropertiesV2Finalize PropertiesV2Roles.
Local Open Scope N_scope.

Section Facts.
Context `{X : Ext} {L : ExtLaws X} `{C : Cfg} {CL : CfgLaws C} `{S : SignExt} {LS : SignLaws X S} `{M : MsExt}.

(** ** Constructors *)

(** The parts of the global map that a constructor does not touch. *)
Definition kept_global (a b : global) : Prop :=
  g_version b = g_version a /\ g_tx_version b = g_tx_version a /\ g_fallback_lock_time b = g_fallback_lock_time a
  /\ g_xpubs b = g_xpubs a /\ g_sp_ecdh_shares b = g_sp_ecdh_shares a /\ g_sp_dleq_proofs b = g_sp_dleq_proofs a
  /\ g_proprietaries b = g_proprietaries a /\ g_unknowns b = g_unknowns a.

Lemma incr_ok {E} n m : incr (E := E) n = Ok m -> n < U64 - 1 -> m = n + 1.
Proof. unfold incr. intros H Hn. destruct (panic_unless _); cbn in H; try discriminate. inj H. apply N.mod_small. lia. Qed.

Lemma kcalls_result {E} ks : forall p q, do_kcalls (E := E) p ks = Ok q ->
  p_inputs q = p_inputs p ++ all_of kc_input ks /\ p_outputs q = p_outputs p ++ all_of kc_output ks
  /\ kept_global (p_global p) (p_global q)
  /\ (forall b, N.testbit (g_tx_modifiable_flags (p_global q)) b = true -> N.testbit (g_tx_modifiable_flags (p_global p)) b = true)
  /\ (blen (p_inputs q) < U64 - 1 -> g_input_count (p_global p) = blen (p_inputs p) -> g_input_count (p_global q) = blen (p_inputs q))
  /\ (blen (p_outputs q) < U64 - 1 -> g_output_count (p_global p) = blen (p_outputs p) -> g_output_count (p_global q) = blen (p_outputs q)).
Proof.
  induction ks as [|c ks IH]; cbn [do_kcalls all_of]; intros p q H.
  { inj H. rewrite !app_nil_r. unfold kept_global. auto 15. }
  apply bind_ok in H as (p' & Hp & H). apply IH in H as (H1 & H2 & H3 & H4 & H5 & H6). clear IH.
  destruct c; cbn [do_kcall kc_input kc_output] in *.
  - unfold constructor_input in Hp. apply bind_ok in Hp as (n & Hn & Hp). inj Hp. cbn [p_inputs p_outputs p_global] in *.
    rewrite <- app_assoc in H1. split; [exact H1|]. split; [exact H2|]. split; [exact H3|]. split; [exact H4|]. split; [|exact H6].
    intros Hl Hc. apply H5; [exact Hl|]. cbn [set_g_input_count g_input_count]. rewrite H1 in Hl. unfold blen in *. rewrite !app_length in *. cbn [length] in *.
    rewrite (incr_ok _ _ Hn); lia.
  - unfold constructor_output in Hp. apply bind_ok in Hp as (n & Hn & Hp). inj Hp. cbn [p_inputs p_outputs p_global] in *.
    rewrite <- app_assoc in H2. split; [exact H1|]. split; [exact H2|]. split; [exact H3|]. split; [exact H4|]. split; [exact H5|].
    intros Hl Hc. apply H6; [exact Hl|]. cbn [set_g_output_count g_output_count]. rewrite H2 in Hl. unfold blen in *. rewrite !app_length in *. cbn [length] in *.
    rewrite (incr_ok _ _ Hn); lia.
  - inj Hp. split; [exact H1|]. split; [exact H2|]. split; [exact H3|]. split; [|split; [exact H5|exact H6]].
    intros b Hb. apply H4 in Hb. change (N.testbit (N.ldiff (g_tx_modifiable_flags (p_global p)) (2 ^ 0)) b = true) in Hb.
    rewrite bit_ldiff in Hb. now apply andb_prop in Hb as [Hb _].
  - inj Hp. split; [exact H1|]. split; [exact H2|]. split; [exact H3|]. split; [|split; [exact H5|exact H6]].
    intros b Hb. apply H4 in Hb. change (N.testbit (N.ldiff (g_tx_modifiable_flags (p_global p)) (2 ^ 1)) b = true) in Hb.
    rewrite bit_ldiff in Hb. now apply andb_prop in Hb as [Hb _].
Qed.

Lemma all_of_Forall {A B} (f : A -> option B) (P : A -> Prop) (Q : B -> Prop) l :
  (forall a b, P a -> f a = Some b -> Q b) -> Forall P l -> Forall Q (all_of f l).
Proof.
  intros H. induction 1 as [|a l Ha Hl IH]; cbn [all_of]; [constructor|]. destruct (f a) eqn:E; [constructor; eauto|assumption].
Qed.
Lemma all_of_none {A B} (f : A -> option B) (P : A -> Prop) l : (forall a, P a -> f a = None) -> Forall P l -> all_of f l = [].
Proof. intros H. induction 1 as [|a l Ha Hl IH]; cbn [all_of]; [reflexivity|]. now rewrite (H a Ha). Qed.

Lemma small_flags a : (forall b, N.testbit a b = true -> b < 8) -> a < 256.
Proof.
  intros H. destruct (N.eq_dec a 0) as [->|Hz]; [lia|]. pose proof (N.bit_log2 _ Hz) as Hb. apply H in Hb.
  apply N.log2_lt_cancel. change (N.log2 256) with 8. lia.
Qed.
Lemma small_bits a b : a < 256 -> N.testbit a b = true -> b < 8.
Proof.
  intros Ha Hb. destruct (N.lt_ge_cases b 8) as [G|G]; [exact G|]. rewrite N.bits_above_log2 in Hb; [discriminate|].
  destruct (N.eq_dec a 0) as [->|Hz]; [cbn; lia|]. assert (N.log2 a < 8) by (apply N.log2_lt_pow2; lia). lia.
Qed.

Lemma fits_small p : fits p -> blen (p_inputs p) < U64 - 1 /\ blen (p_outputs p) < U64 - 1.
Proof.
  intros [H1 H2]. pose proof (@size_input_pos C CL) as Z1. pose proof (@size_output_pos C CL) as Z2.
  assert (G : forall n s, 0 < s -> n * s <= ISIZE_MAX -> n < U64 - 1).
  { intros n s Hs Hn. apply N.le_lt_trans with ISIZE_MAX; [|reflexivity]. etransitivity; [|exact Hn].
    rewrite <- (N.mul_1_r n) at 1. apply N.mul_le_mono_l. lia. }
  split; eauto.
Qed.

Lemma global_wf_kept a b : wf_global a -> kept_global a b ->
  g_tx_modifiable_flags b < 256 -> g_input_count b < U64 -> g_output_count b < U64 -> wf_global b.
Proof.
  intros [] (E1 & E2 & E3 & E4 & E5 & E6 & E7 & E8) Hf Hi Ho. constructor; rewrite ?E1, ?E2, ?E3, ?E4, ?E5, ?E6, ?E7, ?E8; auto.
Qed.

Lemma kcalls_wf {E} ks p q : wf_psbt p -> Forall good_kcall ks -> do_kcalls (E := E) p ks = Ok q -> fits q -> wf_psbt q.
Proof.
  intros W Hk H Hf. pose proof (fits_small _ Hf) as [F1 F2]. destruct (kcalls_result ks p q H) as (H1 & H2 & H3 & H4 & H5 & H6).
  destruct W. specialize (H5 F1 wp_input_count). specialize (H6 F2 wp_output_count). destruct Hf as [G1 G2].
  constructor; auto.
  - apply (global_wf_kept _ _ wp_global H3).
    + apply small_flags. intros b Hb. apply H4 in Hb. eapply small_bits; [|exact Hb]. exact (wg_flags _ wp_global).
    + rewrite H5. lia.
    + rewrite H6. lia.
  - rewrite H1. apply Forall_app. split; [assumption|]. eapply all_of_Forall; [|exact Hk]. intros [] b; cbn; congruence.
  - rewrite H2. apply Forall_app. split; [assumption|]. eapply all_of_Forall; [|exact Hk]. intros [] b; cbn; congruence.
Qed.

Lemma creator_wf k cs : Forall good_ccall cs -> wf_psbt (creator_constructor k (fold_left do_ccall cs creator_new)).
Proof.
  intros Hc. rewrite Forall_forall in Hc. destruct (construct_asked (E := Empty_set) k cs [] (Forall_nil _)) as (p & Hp & A); [reflexivity|reflexivity|].
  cbn [construct do_kcalls] in Hp. unfold construct in Hp. cbn [do_kcalls] in Hp. inj Hp. destruct A as [A1 A2 A3 A4 A5 A6 (B1 & B2 & B3 & B4 & B5) A8 A9].
  cbn [all_of length] in *. set (p := creator_constructor k (fold_left do_ccall cs creator_new)) in *. constructor.
  - constructor.
    + exact A6.
    + rewrite A3. destruct (latest cc_version cs) as [v|] eqn:E; [|reflexivity]. apply latest_in in E as (c & Hin & E).
      apply Hc in Hin. destruct c; try discriminate. injection E as ->. exact Hin.
    + rewrite A4. destruct (latest cc_fallback cs) as [v|] eqn:E; [|exact I]. apply latest_in in E as (c & Hin & E).
      apply Hc in Hin. destruct c; try discriminate. injection E as ->. exact Hin.
    + apply small_flags. intros b Hb. apply A5 in Hb. lia.
    + rewrite A8. reflexivity.
    + rewrite A9. reflexivity.
    + rewrite B1. apply map_of_nil.
    + rewrite B2. unfold sp_field. destruct feat_sp; [apply map_of_nil|reflexivity].
    + rewrite B3. unfold sp_field. destruct feat_sp; [apply map_of_nil|reflexivity].
    + now rewrite B2, B3.
    + rewrite B4. apply map_of_nil.
    + rewrite B5. apply map_of_nil.
  - rewrite A1. constructor.
  - rewrite A2. constructor.
  - now rewrite A1.
  - now rewrite A2.
  - rewrite A1. discriminate.
  - rewrite A2. discriminate.
Qed.

Lemma origin_wf p : origin p -> wf_psbt p.
Proof.
  intros [k cs ks q Hc Ha Hk H Hf|bs q H]; [|exact (deserialize_wf _ _ H)].
  exact (kcalls_wf ks _ q (creator_wf k cs Hc) Hk H Hf).
Qed.

(** ** The other roles *)

Lemma updater_result p q : constructor_updater p = Ok q ->
  p_inputs q = p_inputs p /\ p_outputs q = p_outputs p /\ kept_global (p_global p) (p_global q)
  /\ g_input_count (p_global q) = g_input_count (p_global p) /\ g_output_count (p_global q) = g_output_count (p_global p)
  /\ (forall b, N.testbit (g_tx_modifiable_flags (p_global q)) b = true -> N.testbit (g_tx_modifiable_flags (p_global p)) b = true).
Proof.
  unfold constructor_updater, constructor_psbt. intros H. apply bind_ok in H as (n & _ & H). inj H.
  cbn [constructor_no_more_outputs constructor_no_more_inputs on_global set_p_global p_inputs p_outputs p_global
       clear_outputs_modifiable_flag clear_inputs_modifiable_flag set_g_tx_modifiable_flags].
  unfold kept_global. cbn. do 5 (split; [auto 10|]). intros b Hb. rewrite !N.ldiff_spec in Hb.
  apply andb_prop in Hb as [Hb _]. now apply andb_prop in Hb as [Hb _].
Qed.

Lemma step_wf p q : wf_psbt p -> step p q -> wf_psbt q.
Proof.
  intros W St. revert W. destruct St as [k p1 p' ks q1 Hn Ha Hk H Hf|p1 q1 H|p1 ins outs Wi Wo Ei Eo|n index p1 q1 Hn H|k p1 q1 used H|p1 o q1 Wo H|p1 q1 Hv Hz H|p1 q1 H]; intros W.
  - apply constructor_new_iff in Hn as (-> & _). exact (kcalls_wf ks _ _ W Hk H Hf).
  - apply updater_result in H as (H1 & H2 & H3 & H4 & H5 & H6). destruct W. constructor; rewrite ?H1, ?H2, ?H4, ?H5; auto.
    apply (global_wf_kept _ _ wp_global H3); rewrite ?H4, ?H5; [|exact (wg_input_count _ wp_global)|exact (wg_output_count _ wp_global)].
    apply small_flags. intros b Hb. apply H6 in Hb. eapply small_bits; [|exact Hb]. exact (wg_flags _ wp_global).
  - assert (Li : length ins = length (p_inputs p1)) by (now rewrite <- (map_length outpoint_of ins), Ei, map_length).
    assert (Lo : length outs = length (p_outputs p1)) by (now rewrite <- (map_length payment_of outs), Eo, map_length).
    destruct W. unfold blen in *. constructor; cbn [p_global p_inputs p_outputs]; unfold blen; rewrite ?Li, ?Lo; auto.
  - apply set_sequence_ok in H as (i & Hi & _ & _ & ->). destruct W. unfold blen in *. constructor; cbn [p_global p_inputs p_outputs]; unfold blen; rewrite ?set_nth_length; auto.
    rewrite Forall_forall in wp_inputs. apply set_nth_forall; [now apply Forall_forall|]. intros j Hj. rewrite Hi in Hj. injection Hj as <-.
    pose proof (wp_inputs i (nth_error_In _ _ Hi)) as []. constructor; auto.
  - exact (C60_wf X C S LS k _ _ used H W).
  - exact (psbt_combine_wf _ _ _ H W Wo).
  - exact (C70_wf X C M _ _ W Hv H Hz).
  - exact (deserialize_wf _ _ H).
Qed.
Lemma steps_wf p q : wf_psbt p -> steps p q -> wf_psbt q.
Proof. intros W. induction 1; eauto using step_wf. Qed.

(** ** What stays the same *)

(** [q] has the version of [p], and the inputs and outputs of [p] and possibly more behind
    them; flags are only cleared, and what is not modifiable has not been added to. *)
Record grown (p q : psbt) : Prop := {
  gr_version : g_tx_version (p_global q) = g_tx_version (p_global p);
  gr_inputs : exists more, map outpoint_of (p_inputs q) = map outpoint_of (p_inputs p) ++ more /\ (open_inputs p \/ more = []);
  gr_outputs : exists more, map payment_of (p_outputs q) = map payment_of (p_outputs p) ++ more /\ (open_outputs p \/ more = []);
  gr_open_inputs : open_inputs q -> open_inputs p;
  gr_open_outputs : open_outputs q -> open_outputs p
}.
Lemma grown_refl p : grown p p.
Proof. constructor; auto; exists []; rewrite app_nil_r; auto. Qed.
Lemma grown_trans p q r : grown p q -> grown q r -> grown p r.
Proof.
  intros [V1 (a1 & E1 & F1) (b1 & G1 & K1) O1 P1] [V2 (a2 & E2 & F2) (b2 & G2 & K2) O2 P2]. constructor; auto; [congruence| |].
  - exists (a1 ++ a2). rewrite E2, E1, app_assoc. split; [reflexivity|]. destruct F1 as [F1| ->]; auto. destruct F2 as [F2| ->]; auto.
  - exists (b1 ++ b2). rewrite G2, G1, app_assoc. split; [reflexivity|]. destruct K1 as [K1| ->]; auto. destruct K2 as [K2| ->]; auto.
Qed.
Lemma grown_same p q : g_tx_version (p_global q) = g_tx_version (p_global p) -> map outpoint_of (p_inputs q) = map outpoint_of (p_inputs p) ->
  map payment_of (p_outputs q) = map payment_of (p_outputs p) ->
  (forall b, b < 2 -> N.testbit (g_tx_modifiable_flags (p_global q)) b = true -> N.testbit (g_tx_modifiable_flags (p_global p)) b = true) -> grown p q.
Proof.
  intros V E F G. constructor; auto.
  - exists []. rewrite app_nil_r. auto.
  - exists []. rewrite app_nil_r. auto.
  - apply G. lia.
  - apply G. lia.
Qed.


Lemma zip_map {E A B} (f : A -> A -> res E A) (g : A -> B) l l' r :
  (forall a b c, f a b = Ok c -> g c = g a) -> combine_zip f l l' = Ok r -> map g r = map g l.
Proof.
  intros Hf. revert l' r. induction l as [|a l IH]; intros [|b l'] r H; cbn [combine_zip] in H; try (inj H; reflexivity).
  apply bind_ok in H as (c & Hc & H). apply bind_ok in H as (cs & Hcs & H). inj H. cbn [map]. f_equal; eauto.
Qed.
Lemma output_eq_payment a b : output_eq a b -> payment_of a = payment_of b.
Proof.
  intros [_ H]. unfold set_out_tap_tree in H. injection H as H1 H2 _ _ _ _ _ _ _ _ _. unfold payment_of. now rewrite H1, H2.
Qed.

Lemma step_grown p q : wf_psbt p -> step p q -> grown p q.
Proof.
  intros W St. revert W. destruct St as [k p1 p' ks q1 Hn Ha Hk H Hf|p1 q1 H|p1 ins outs Wi Wo Ei Eo|n index p1 q1 Hn H|k p1 q1 used H|p1 o q1 Wo H|p1 q1 Hv Hz H|p1 q1 H]; intros W.
  - apply constructor_new_iff in Hn as (-> & Oi & Oo). destruct (kcalls_result ks p1 q1 H) as (H1 & H2 & (_ & H3 & _) & H4 & _).
    constructor; [exact H3| | |apply H4|apply H4].
    + exists (map outpoint_of (all_of kc_input ks)). rewrite H1, map_app. split; [reflexivity|].
      destruct k; [left; apply Oi; now left|left; apply Oi; now right|right].
      rewrite (all_of_none _ (allowed KOutputsOnly)); [reflexivity| |exact Ha]. intros []; cbn; auto. intros [Q|Q]; discriminate.
    + exists (map payment_of (all_of kc_output ks)). rewrite H2, map_app. split; [reflexivity|].
      destruct k; [left; apply Oo; now left|right|left; apply Oo; now right].
      rewrite (all_of_none _ (allowed KInputsOnly)); [reflexivity| |exact Ha]. intros []; cbn; auto. intros [Q|Q]; discriminate.
  - apply updater_result in H as (H1 & H2 & (_ & H3 & _) & _ & _ & H6). apply grown_same; [exact H3|now rewrite H1|now rewrite H2|auto].
  - apply grown_same; cbn [p_global p_inputs p_outputs]; auto.
  - apply set_sequence_ok in H as (i & Hi & _ & _ & ->). apply grown_same; cbn [p_global p_inputs p_outputs]; auto. eapply set_nth_map; [exact Hi|reflexivity].
  - pose proof (C22_sign X C S k p1 q1 used H) as [F1 F2 _ _]. destruct (C30_sign X C S k p1 q1 used H) as (t & _ & [B1 B2 B3] & _).
    apply grown_same; [rewrite B3; reflexivity| |now rewrite B1|].
    + clear -B2. induction B2 as [|i i' l l' Hi _ IH]; [reflexivity|]. cbn [map]. f_equal; [|exact IH]. unfold same_but_sigs in Hi. rewrite Hi. reflexivity.
    + intros b Hb Hx. assert (b = 0 \/ b = 1) as [-> | ->] by lia; [now apply F1|now apply F2].
  - apply psbt_combine_ok in H as (Hg & Hi & Ho). unfold global_combine in Hg. apply bind_ok in Hg as (? & _ & Hg). apply bind_ok in Hg as (? & _ & Hg).
    apply bind_ok in Hg as (xs & _ & Hg). apply grown_same.
    + apply Ok_inj in Hg. rewrite <- Hg. reflexivity.
    + eapply zip_map; [|exact Hi]. intros a b c Hc. pose proof (input_combine_ok a b c Hc) as (E1 & E2 & _ & R).
      unfold input_combine in Hc. apply bind_ok in Hc as (? & _ & Hc). apply bind_ok in Hc as (? & _ & Hc). inj Hc. reflexivity.
    + eapply zip_map; [|exact Ho]. intros a b c Hc. unfold output_combine in Hc. apply bind_ok in Hc as (? & _ & Hc). apply bind_ok in Hc as (? & _ & Hc). inj Hc. reflexivity.
    + intros b _. apply Ok_inj in Hg. rewrite <- Hg. auto.
  - destruct (C52_finalize X C M _ _ Hv H) as (Hg & Ho & Hi). apply grown_same; [now rewrite Hg| |now rewrite Ho|now rewrite Hg].
    clear -Hi. induction Hi as [|i i' l l' (ss & w & _ & _ & _ & F) _ IH]; [reflexivity|]. cbn [map]. f_equal; [|exact IH].
    unfold outpoint_of. now rewrite (fi_txid _ _ _ _ F), (fi_index _ _ _ _ F).
  - destruct (psbt_roundtrip p1 W) as (q' & Hq & E1 & E2 & E3). rewrite H in Hq. injection Hq as <-. apply grown_same; [now rewrite E1|now rewrite E2| |now rewrite E1].
    clear -E3. induction E3 as [|a b l l' Hab _ IH]; [reflexivity|]. cbn [map]. f_equal; [|exact IH]. symmetry. now apply output_eq_payment.
Qed.
Lemma steps_grown p q : wf_psbt p -> steps p q -> grown p q.
Proof.
  intros W. induction 1 as [p|p q r H IH St]; [apply grown_refl|]. eapply grown_trans; [now apply IH|]. apply step_grown; [|exact St]. exact (steps_wf p q W H).
Qed.

End Facts.
