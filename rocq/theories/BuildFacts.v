(** Facts about building v2 PSBTs. *)
From Verif Require Import Base OMap Consensus Ext Raw Serialize SerializeFacts V2Global V2Input V2Output V2Psbt V2Roles SpecRoles SpecPsbt SpecBuild V2RolesFacts.
Local Open Scope N_scope.

Lemma latest_app {A B} (f : A -> option B) l c :
  latest f (l ++ [c]) = match f c with Some b => Some b | None => latest f l end.
Proof.
  induction l as [|a l IH]; cbn [latest app]; [now destruct (f c)|]. rewrite IH. now destruct (f c).
Qed.
Lemma all_of_app {A B} (f : A -> option B) l l' : all_of f (l ++ l') = all_of f l ++ all_of f l'.
Proof. induction l as [|a l IH]; [reflexivity|]. cbn [all_of app]. destruct (f a); cbn [app]; now rewrite IH. Qed.
Lemma latest_in {A B} (f : A -> option B) l b : latest f l = Some b -> exists a, In a l /\ f a = Some b.
Proof.
  induction l as [|a l IH]; cbn [latest]; [discriminate|]. destruct (latest f l) eqn:E.
  - intros [= ->]. destruct IH as (x & H1 & H2); auto. exists x. split; [now right|exact H2].
  - intros H. exists a. split; [now left|exact H].
Qed.

(** ** Inputs *)
Lemma build_input_eq op l : build_input op l =
  Input (fst op) (snd op) None (latest bc_time l) (latest bc_height l) (latest bc_legacy l) (latest bc_segwit l)
    [] None None None [] None None [] [] [] [] None [] [] [] None None [] [] [] [].
Proof.
  unfold build_input, input_builder_build, input_builder_new.
  induction l as [|c l IH] using rev_ind; [reflexivity|]. rewrite fold_left_app, IH, !latest_app. now destruct c.
Qed.

Section Wf.
Context `{X : Ext} `{C : Cfg}.

Lemma map_of_nil {K V} (sk : K -> list N) wfk wfv : map_of sk wfk wfv (@nil (K * V)).
Proof. split; constructor. Qed.
Lemma build_input_wf op l : good_outpoint op -> Forall good_call l -> wf_input (build_input op l).
Proof.
  intros (H1 & H2 & H3) H. rewrite Forall_forall in H. rewrite build_input_eq.
  constructor; cbn; try exact I; try apply map_of_nil; try assumption; try (split; [apply map_of_nil|constructor]); try tauto.
  - destruct (latest bc_time l) eqn:E; [|exact I]. apply latest_in in E as (c & Hc & E). apply H in Hc. destruct c; try discriminate. now injection E as ->.
  - destruct (latest bc_height l) eqn:E; [|exact I]. apply latest_in in E as (c & Hc & E). apply H in Hc. destruct c; try discriminate. now injection E as ->.
  - destruct (latest bc_legacy l) eqn:E; [|exact I]. apply latest_in in E as (c & Hc & E). apply H in Hc. destruct c; try discriminate. now injection E as ->.
  - destruct (latest bc_segwit l) eqn:E; [|exact I]. apply latest_in in E as (c & Hc & E). apply H in Hc. destruct c; try discriminate. now injection E as ->.
  - unfold sp_field. destruct feat_sp; [apply map_of_nil|reflexivity].
  - unfold sp_field. destruct feat_sp; [apply map_of_nil|reflexivity].
Qed.
Lemma build_output_wf u : good_payment u -> wf_output (build_output u).
Proof.
  intros (H1 & H2 & H3 & H4). constructor; cbn; try exact I; try apply map_of_nil; try assumption; try tauto.
  - lia.
  - unfold sp_field. destruct feat_sp; [exact I|reflexivity].
  - unfold sp_field. destruct feat_sp; [exact I|reflexivity].
Qed.

(** ** Flags *)
Lemma bit_lor a k b : N.testbit (N.lor a (2 ^ k)) b = N.testbit a b || (k =? b).
Proof. now rewrite N.lor_spec, N.pow2_bits_eqb. Qed.
Lemma bit_ldiff a k b : N.testbit (N.ldiff a (2 ^ k)) b = N.testbit a b && negb (k =? b).
Proof. now rewrite N.ldiff_spec, N.pow2_bits_eqb. Qed.
Lemma has_bit a k : (0 <? N.land a (2 ^ k)) = N.testbit a k.
Proof.
  destruct (N.testbit a k) eqn:E.
  - apply N.ltb_lt. assert (N.land a (2 ^ k) <> 0); [|lia]. intros H.
    assert (F : N.testbit (N.land a (2 ^ k)) k = false) by (rewrite H; apply N.bits_0).
    rewrite N.land_spec, N.pow2_bits_true, E in F. discriminate.
  - apply N.ltb_ge. assert (N.land a (2 ^ k) = 0); [|lia]. apply N.bits_inj. intros b. rewrite N.land_spec, N.pow2_bits_eqb, N.bits_0.
    destruct (k =? b) eqn:Eb; [|now rewrite andb_false_r]. apply N.eqb_eq in Eb. subst. now rewrite E.
Qed.

(** ** The creator *)
Definition flag_bits (f : N) (b0 b1 b2 : Prop) : Prop :=
  forall b, N.testbit f b = true <-> (b = 0 /\ b0) \/ (b = 1 /\ b1) \/ (b = 2 /\ b2).
Lemma flag_set f b0 b1 b2 k : flag_bits f b0 b1 b2 -> k < 3 ->
  flag_bits (N.lor f (2 ^ k)) (b0 \/ k = 0) (b1 \/ k = 1) (b2 \/ k = 2).
Proof.
  intros H Hk b. specialize (H b). rewrite bit_lor, orb_true_iff, H, N.eqb_eq.
  assert (k = 0 \/ k = 1 \/ k = 2) as [-> | [-> | ->]] by lia; intuition lia.
Qed.
Lemma flag_clear f b0 b1 b2 k : flag_bits f b0 b1 b2 -> k < 3 ->
  flag_bits (N.ldiff f (2 ^ k)) (b0 /\ k <> 0) (b1 /\ k <> 1) (b2 /\ k <> 2).
Proof.
  intros H Hk b. specialize (H b). rewrite bit_ldiff, andb_true_iff, H, negb_true_iff, N.eqb_neq.
  assert (k = 0 \/ k = 1 \/ k = 2) as [-> | [-> | ->]] by lia; intuition lia.
Qed.
Lemma flag_iff f b0 b1 b2 c0 c1 c2 : flag_bits f b0 b1 b2 -> (b0 <-> c0) -> (b1 <-> c1) -> (b2 <-> c2) -> flag_bits f c0 c1 c2.
Proof. intros H E0 E1 E2 b. specialize (H b). rewrite H. tauto. Qed.

Definition bare (g : global) : Prop := g_version g = 2 /\ g_xpubs g = [] /\ g_sp_ecdh_shares g = [] /\ g_sp_dleq_proofs g = []
    /\ g_proprietaries g = [] /\ g_unknowns g = [].

Lemma creator_calls cs : let p := fold_left do_ccall cs creator_new in
  p_inputs p = [] /\ p_outputs p = [] /\ g_tx_version (p_global p) = match latest cc_version cs with Some v => v | None => 2 end
  /\ g_fallback_lock_time (p_global p) = latest cc_fallback cs
  /\ g_input_count (p_global p) = 0 /\ g_output_count (p_global p) = 0 /\ bare (p_global p)
  /\ flag_bits (g_tx_modifiable_flags (p_global p)) (In CcInputs cs) (In CcOutputs cs) (In CcSingle cs).
Proof.
  induction cs as [|c cs IH] using rev_ind.
  - cbn. do 6 (split; [reflexivity|]). split; [repeat split|]. intros b. rewrite N.bits_0. intuition discriminate.
  - rewrite fold_left_app. cbn [fold_left]. set (p := fold_left _ _ _) in *. destruct IH as (I1 & I2 & I3 & I4 & I5 & I6 & I7 & I8).
    rewrite !latest_app. unfold bare in *.
    destruct c; cbn -[N.lor]; (split; [exact I1|]); (split; [exact I2|]); (split; [first [exact I3|reflexivity]|]);
      (split; [first [exact I4|reflexivity]|]); (split; [exact I5|]); (split; [exact I6|]); (split; [exact I7|]).
    + eapply flag_iff; [exact I8|..]; rewrite in_app_iff; cbn; intuition discriminate.
    + eapply flag_iff; [exact I8|..]; rewrite in_app_iff; cbn; intuition discriminate.
    + eapply flag_iff; [exact (flag_set _ _ _ _ 2 I8 eq_refl)|..]; rewrite in_app_iff; cbn; intuition discriminate.
    + eapply flag_iff; [exact (flag_set _ _ _ _ 0 I8 eq_refl)|..]; rewrite in_app_iff; cbn; intuition discriminate.
    + eapply flag_iff; [exact (flag_set _ _ _ _ 1 I8 eq_refl)|..]; rewrite in_app_iff; cbn; intuition discriminate.
Qed.

Lemma do_kcalls_app {E} l c : forall p, do_kcalls (E := E) p (l ++ [c]) = (q <- do_kcalls p l ;; do_kcall q c).
Proof.
  induction l as [|d l IH]; intros p; cbn [do_kcalls app bind].
  - destruct (do_kcall p c); reflexivity.
  - destruct (do_kcall p d); cbn [bind]; auto.
Qed.

Lemma construct_asked {E} k cs ks : Forall (allowed k) ks ->
  N.of_nat (length (all_of kc_input ks)) < 2 ^ 64 -> N.of_nat (length (all_of kc_output ks)) < 2 ^ 64 ->
  exists p, construct (E := E) k cs ks = Ok p /\ as_asked k cs ks p.
Proof.
  intros Ha. unfold construct. pose proof (creator_calls cs) as (I1 & I2 & I3 & I4 & I5 & I6 & I7 & I8).
  set (p0 := fold_left _ _ _) in *. induction ks as [|c ks IH] using rev_ind; intros Hi Ho.
  - exists (creator_constructor k p0). split; [reflexivity|].
    destruct I7 as (J1 & J2 & J3 & J4 & J5 & J6).
    constructor; destruct k; cbn -[N.lor N.ldiff]; try assumption; auto.
    + eapply flag_iff; [exact (flag_set _ _ _ _ 1 (flag_set _ _ _ _ 0 I8 eq_refl) eq_refl)|..];
        unfold takes_inputs, takes_outputs; intuition discriminate.
    + eapply flag_iff; [exact (flag_clear _ _ _ _ 1 (flag_set _ _ _ _ 0 I8 eq_refl) eq_refl)|..];
        unfold takes_inputs, takes_outputs; intuition discriminate.
    + eapply flag_iff; [exact (flag_set _ _ _ _ 1 (flag_clear _ _ _ _ 0 I8 eq_refl) eq_refl)|..];
        unfold takes_inputs, takes_outputs; intuition discriminate.
  - apply Forall_app in Ha as [Ha Hc]. apply Forall_cons_iff in Hc as [Hc _].
    rewrite all_of_app, app_length, Nnat.Nat2N.inj_add in Hi. rewrite all_of_app, app_length, Nnat.Nat2N.inj_add in Ho.
    destruct IH as (p & Ep & A); [exact Ha|lia|lia|]. rewrite do_kcalls_app, Ep. cbn [bind].
    destruct A as [A1 A2 A3 A4 A5 A6 A7 A8 A9]. destruct c as [i|o| |]; cbn [do_kcall].
    + unfold constructor_input, incr. rewrite A8. cbn [all_of kc_input length] in Hi.
      replace (_ + 1 <? U64) with true by (unfold U64; lia). rewrite orb_true_r. cbn [panic_unless bind].
      eexists. split; [reflexivity|]. constructor; cbn -[N.modulo N.add N.of_nat]; auto.
      * now rewrite all_of_app, A1.
      * now rewrite all_of_app, A2, app_nil_r.
      * intros b. rewrite A5, in_app_iff. cbn. rewrite in_app_iff. cbn. intuition discriminate.
      * rewrite all_of_app, app_length. cbn [all_of kc_input length]. rewrite N.mod_small by (unfold U64; lia). lia.
      * now rewrite all_of_app, app_nil_r.
    + unfold constructor_output, incr. rewrite A9. cbn [all_of kc_output length] in Ho.
      replace (_ + 1 <? U64) with true by (unfold U64; lia). rewrite orb_true_r. cbn [panic_unless bind].
      eexists. split; [reflexivity|]. constructor; cbn -[N.modulo N.add N.of_nat]; auto.
      * now rewrite all_of_app, A1, app_nil_r.
      * now rewrite all_of_app, A2.
      * intros b. rewrite A5, in_app_iff. cbn. rewrite in_app_iff. cbn. intuition discriminate.
      * now rewrite all_of_app, app_nil_r.
      * rewrite all_of_app, app_length. cbn [all_of kc_output length]. rewrite N.mod_small by (unfold U64; lia). lia.
    + eexists. split; [reflexivity|]. constructor; cbn -[N.ldiff]; rewrite ?all_of_app, ?app_nil_r; auto.
      eapply flag_iff; [exact (flag_clear _ _ _ _ 0 A5 eq_refl)|..]; rewrite ?in_app_iff; cbn; intuition discriminate.
    + eexists. split; [reflexivity|]. constructor; cbn -[N.ldiff]; rewrite ?all_of_app, ?app_nil_r; auto.
      eapply flag_iff; [exact (flag_clear _ _ _ _ 1 A5 eq_refl)|..]; rewrite ?in_app_iff; cbn; intuition discriminate.
Qed.
End Wf.
