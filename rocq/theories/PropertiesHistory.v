(** C127, C128: what holds of every v2 PSBT however the roles have handled it. *)
From Verif Require Import Base OMap Consensus Ext ExtInstance Raw TapTree Serialize SerializeFacts V2Global V2Input V2Output V2Psbt V2Roles SighashType
  V2Sign SignInstance V2Finalize SpecRoles SpecPsbt SpecCombine SpecSign SpecFinalize MsInstance V2PsbtFacts V2CodecFacts V2WireFacts V2RolesFacts SampleV2
  SpecBuild BuildFacts SpecHistory HistoryFacts PropertiesV2Codec PropertiesV2Roles PropertiesV2Combine PropertiesV2Sign PropertiesV2Finalize.
Local Open Scope N_scope.

(** Used by the examples only; the theorems bind their own. *)
#[local] Existing Instance toy | 100.
#[local] Existing Instance toy_sign | 100.
#[local] Existing Instance toy_ms | 100.
#[local] Instance ex_cfg : Cfg | 100 := cfg_of false false.

(** A history: made by the constructor, handed to the updater, filled in, signed, finalized and
    stored. *)
Definition hx_ks : list kcall := [KcInput (input_new (txid_a, 0)); KcOutput (output_new (TxOut 4000 p2wpkh_a))].
Definition hx_made : psbt := match construct (E := Empty_set) KModifiable [] hx_ks with Ok p => p | _ => empty_psbt end.
Definition hx_updater : psbt := match constructor_updater hx_made with Ok p => p | _ => empty_psbt end.
Definition hx_input : input := set_in_bip32_derivations [(fx_key, ex_src 1)] fx_wpkh.
Definition hx_filled : psbt := Psbt (p_global hx_updater) [hx_input] (p_outputs hx_updater).
Definition hx_signed : psbt := match signer_sign (ex_keys [ex_sec_a]) hx_filled with Ok (p, _) => p | _ => hx_filled end.
Definition hx_one : input := hd hx_input (p_inputs hx_signed).
Definition hx_final : psbt := match finalizer_finalize hx_signed with Ok q => q | _ => hx_signed end.

Lemma hx_wf p : psbt_deserialize (psbt_serialize p) = Ok p -> wf_psbt p.
Proof. apply deserialize_wf. Qed.
Lemma hx_made_origin : origin hx_made.
Proof.
  assert (H0 : Forall good_ccall []) by constructor.
  assert (H1 : Forall (allowed KModifiable) hx_ks) by (repeat constructor).
  assert (W : wf_psbt hx_filled) by (apply hx_wf; vm_compute; reflexivity).
  assert (W' : wf_psbt hx_made) by (apply hx_wf; vm_compute; reflexivity).
  refine (Or_made KModifiable [] hx_ks hx_made H0 H1 _ _ _).
  - constructor; [|constructor; [|constructor]]; cbn [good_kcall].
    + pose proof (wp_inputs _ W') as H. rewrite Forall_forall in H. apply H. vm_compute. now left.
    + pose proof (wp_outputs _ W') as H. rewrite Forall_forall in H. apply H. vm_compute. now left.
  - vm_compute. reflexivity.
  - split; vm_compute; discriminate.
Qed.
Lemma hx_sizes : forall i ss w, In i (p_inputs hx_signed) -> computed hx_signed i ss w -> wf_value ss /\ wf_witness_v w.
Proof.
  assert (E : p_inputs hx_signed = [hx_one]) by (vm_compute; reflexivity).
  assert (Q : exists ss w, computed hx_signed hx_one ss w /\ wf_value ss /\ wf_witness_v w).
  { do 2 eexists. split; [vm_compute; reflexivity|]. split; [vm_compute; discriminate|]. vm_compute. repeat split; discriminate. }
  destruct Q as (ss & w & Q & G). intros i ss' w' Hi H. rewrite E in Hi. destruct Hi as [<-|[]]. unfold computed in *. rewrite Q in H. now injection H as <- <-.
Qed.
Lemma hx_steps : steps hx_made hx_final.
Proof.
  refine (Ss_more _ hx_final _ (Ss_more _ hx_signed _ (Ss_more _ hx_filled _ (Ss_more _ hx_updater _ (Ss_more _ hx_made _ (Ss_none _) _) _) _) _) _).
  - apply St_updater. vm_compute. reflexivity.
  - assert (W : wf_psbt hx_filled) by (apply hx_wf; vm_compute; reflexivity).
    apply (St_fill hx_updater [hx_input] (p_outputs hx_updater)); [exact (wp_inputs _ W)|exact (wp_outputs _ W)|vm_compute; reflexivity|reflexivity].
  - apply (St_sign (ex_keys [ex_sec_a]) _ _ [(0, [PubKey true fx_key])]). vm_compute. reflexivity.
  - apply St_finalize; [vm_compute; reflexivity|exact hx_sizes|vm_compute; reflexivity].
  - apply St_store. vm_compute. reflexivity.
Qed.

(** ** C127: whatever the roles make can be stored *)

Theorem C127_stored : forall (X : Ext) (L : ExtLaws X) (C : Cfg) (CL : CfgLaws C) (S : SignExt) (LS : SignLaws X S) (M : MsExt) p,
  history p ->
  wf_psbt p /\ exists q, psbt_deserialize (psbt_serialize p) = Ok q /\ psbt_eq p q /\ history q.
Proof.
  intros X L C CL S LS M p (o & Ho & Hs). pose proof (steps_wf o p (origin_wf o Ho) Hs) as W. split; [exact W|].
  destruct (psbt_roundtrip p W) as (q & Hq & E). exists q. split; [exact Hq|]. split; [exact E|].
  exists o. split; [exact Ho|]. exact (Ss_more _ _ _ Hs (St_store p q Hq)).
Qed.
Print Assumptions C127_stored.
Example C127_example : history hx_final /\ Forall finalized (p_inputs hx_final).
Proof.
  split; [exists hx_made; split; [exact hx_made_origin|exact hx_steps]|].
  assert (E : extractor_new hx_final = Ok hx_final) by (vm_compute; reflexivity).
  apply (proj1 (C25_extractor_new toy ex_cfg hx_final)) in E as (_ & F & _). exact F.
Qed.

(** ** C128: what was agreed on stays *)

(** Inputs and outputs stay in their places, others come behind them, and none once the flag is
    cleared; no step sets a flag. *)
Theorem C128_kept : forall (X : Ext) (L : ExtLaws X) (C : Cfg) (CL : CfgLaws C) (S : SignExt) (LS : SignLaws X S) (M : MsExt) p q,
  history p -> steps p q ->
  g_tx_version (p_global q) = g_tx_version (p_global p)
  /\ (forall n i, nth_error (p_inputs p) n = Some i -> exists j, nth_error (p_inputs q) n = Some j /\ outpoint_of j = outpoint_of i)
  /\ (forall n o, nth_error (p_outputs p) n = Some o -> exists u, nth_error (p_outputs q) n = Some u /\ payment_of u = payment_of o)
  /\ (~ open_inputs p -> length (p_inputs q) = length (p_inputs p) /\ ~ open_inputs q)
  /\ (~ open_outputs p -> length (p_outputs q) = length (p_outputs p) /\ ~ open_outputs q).
Proof.
  intros X L C CL S LS M p q (o & Ho & Hs) H. pose proof (steps_wf o p (origin_wf o Ho) Hs) as W.
  destruct (steps_grown p q W H) as [G1 (mi & G2 & G3) (mo & G4 & G5) G6 G7].
  assert (At : forall A B (f : A -> B) l l' m n a, map f l' = map f l ++ m -> nth_error l n = Some a -> exists b, nth_error l' n = Some b /\ f b = f a).
  { intros A B f l l' m n a E Ha. assert (Q : nth_error (map f l') n = Some (f a)).
    { rewrite E, nth_error_app1 by (rewrite map_length; apply nth_error_Some; congruence). now apply map_nth_error. }
    rewrite nth_error_map in Q. destruct (nth_error l' n) as [b|]; [|discriminate]. exists b. split; [reflexivity|]. now injection Q. }
  split; [exact G1|]. split; [intros n i; exact (At _ _ _ _ _ _ n i G2)|]. split; [intros n i; exact (At _ _ _ _ _ _ n i G4)|].
  split; intros N; (split; [|tauto]).
  - destruct G3 as [G3| ->]; [tauto|]. rewrite app_nil_r in G2. apply (f_equal (@length _)) in G2. now rewrite !map_length in G2.
  - destruct G5 as [G5| ->]; [tauto|]. rewrite app_nil_r in G4. apply (f_equal (@length _)) in G4. now rewrite !map_length in G4.
Qed.
Print Assumptions C128_kept.
Example C128_example : history hx_made /\ steps hx_made hx_final /\ open_inputs hx_made /\ ~ open_inputs hx_final /\ ~ open_outputs hx_final
  /\ map outpoint_of (p_inputs hx_final) = [(txid_a, 0)].
Proof.
  split; [exists hx_made; split; [exact hx_made_origin|constructor]|]. split; [exact hx_steps|]. split; [vm_compute; reflexivity|].
  split; [vm_compute; discriminate|]. split; [vm_compute; discriminate|]. vm_compute. reflexivity.
Qed.

(** From the constructor to the extractor: once the inputs and outputs are complete, the
    transaction extracted after any further steps is the one that was asked for. *)
Theorem C128_extracted : forall (X : Ext) (L : ExtLaws X) (C : Cfg) (CL : CfgLaws C) (S : SignExt) (LS : SignLaws X S) (M : MsExt) k cs ks p u q t,
  Forall good_ccall cs -> Forall (allowed k) ks -> Forall good_kcall ks -> construct (E := Empty_set) k cs ks = Ok p -> fits p ->
  constructor_updater p = Ok u -> steps u q -> extractor_value q -> extract_tx_unchecked q = Ok t ->
  tx_version t = match latest cc_version cs with Some v => v | None => 2 end
  /\ map (fun i => (ti_txid i, ti_vout i)) (tx_input t) = map outpoint_of (all_of kc_input ks)
  /\ map (fun o => (to_value o, to_script o)) (tx_output t) = map payment_of (all_of kc_output ks).
Proof.
  intros X L C CL S LS M k cs ks p u q t Hc Ha Hk H Hf Hu Hs Hx Ht.
  pose proof (origin_wf p (Or_made k cs ks p Hc Ha Hk H Hf)) as Wp.
  pose proof (step_wf p u Wp (St_updater p u Hu)) as Wu. destruct (fits_small p Hf) as [F1 F2].
  destruct (kcalls_result ks _ p H) as (K1 & K2 & _).
  assert (B : p_inputs (creator_constructor k (fold_left do_ccall cs creator_new)) = [] /\ p_outputs (creator_constructor k (fold_left do_ccall cs creator_new)) = []).
  { destruct (construct_asked (E := Empty_set) k cs [] (Forall_nil _)) as (p0 & Hp0 & A0); [reflexivity|reflexivity|].
    unfold construct in Hp0. cbn [do_kcalls] in Hp0. apply Ok_inj in Hp0. subst p0. split; [exact (aa_inputs _ _ _ _ A0)|exact (aa_outputs _ _ _ _ A0)]. }
  destruct B as [B1 B2]. rewrite B1 in K1. rewrite B2 in K2. cbn [app] in K1, K2. unfold blen in F1, F2. rewrite K1 in F1. rewrite K2 in F2.
  destruct (construct_asked (E := Empty_set) k cs ks Ha) as (p' & Hp' & A); [unfold U64 in F1; lia|unfold U64 in F2; lia|].
  rewrite H in Hp'. apply Ok_inj in Hp'. subst p'.
  destruct (updater_result p u Hu) as (U1 & U2 & (_ & U3 & _) & _).
  assert (Z : ~ open_inputs u /\ ~ open_outputs u).
  { unfold constructor_updater, constructor_psbt in Hu. apply bind_ok in Hu as (n & _ & Hu). apply Ok_inj in Hu. subst u.
    unfold open_inputs, open_outputs. cbn. rewrite !N.ldiff_spec. cbn. split; destruct (N.testbit _ _); cbn; discriminate. }
  destruct Z as [Z1 Z2]. destruct (steps_grown u q Wu Hs) as [G1 (mi & G2 & G3) (mo & G4 & G5) _ _].
  destruct G3 as [G3| ->]; [now apply Z1 in G3|]. destruct G5 as [G5| ->]; [now apply Z2 in G5|]. rewrite app_nil_r in *.
  destruct (C25_extracts X C q Hx) as (n & t' & _ & [E1 _ E3 E4] & Ht' & _). rewrite Ht in Ht'. apply Ok_inj in Ht'. subst t'.
  split; [rewrite E1, G1, U3; exact (aa_version _ _ _ _ A)|]. rewrite <- K1, <- K2, <- U1, <- U2, <- G2, <- G4. split.
  - clear -E3. induction E3 as [|i ti l l' (Hi & _) _ IH]; [reflexivity|]. cbn [map]. now rewrite IH, Hi.
  - clear -E4. induction E4 as [|i ti l l' Hi _ IH]; [reflexivity|]. cbn [map]. now rewrite IH, Hi.
Qed.
Print Assumptions C128_extracted.
Example C128_extracted_example :
  Forall (allowed KModifiable) hx_ks /\ construct (E := Empty_set) KModifiable [] hx_ks = Ok hx_made /\ constructor_updater hx_made = Ok hx_updater
  /\ steps hx_updater hx_final /\ extractor_value hx_final
  /\ exists t, extract_tx_unchecked hx_final = Ok t /\ map (fun i => (ti_txid i, ti_vout i)) (tx_input t) = [(txid_a, 0)]
     /\ map (fun i => length (ti_witness i)) (tx_input t) = [2%nat].
Proof.
  split; [repeat constructor|]. split; [vm_compute; reflexivity|]. split; [vm_compute; reflexivity|]. split.
  - refine (Ss_more _ hx_signed _ (Ss_more _ hx_filled _ (Ss_more _ hx_updater _ (Ss_none _) _) _) _).
    + assert (W : wf_psbt hx_filled) by (apply hx_wf; vm_compute; reflexivity).
      apply (St_fill hx_updater [hx_input] (p_outputs hx_updater)); [exact (wp_inputs _ W)|exact (wp_outputs _ W)|vm_compute; reflexivity|reflexivity].
    + apply (St_sign (ex_keys [ex_sec_a]) _ _ [(0, [PubKey true fx_key])]). vm_compute. reflexivity.
    + apply St_finalize; [vm_compute; reflexivity|exact hx_sizes|vm_compute; reflexivity].
  - split; [apply (ENew hx_final); vm_compute; reflexivity|]. eexists. split; [vm_compute; reflexivity|]. split; vm_compute; reflexivity.
Qed.

(** Nothing of this protects a PSBT that is combined into another one: the flags are those of the
    PSBT it is combined into.  A signed PSBT that may not be modified any more becomes
    modifiable, with its signatures, and an output is added. *)
Definition hx_again : psbt := match psbt_combine hx_made hx_signed with Ok q => q | _ => hx_made end.
Definition hx_more : psbt := match do_kcalls (E := Empty_set) hx_again [KcOutput (output_new (TxOut 700 p2wpkh_a))] with Ok q => q | _ => hx_again end.
Theorem C128_refuted : exists (X : Ext) (C : Cfg) (S : SignExt) (M : MsExt) a p q r,
  history a /\ history p /\ ~ open_inputs p /\ ~ open_outputs p /\ Exists (fun i => in_partial_sigs i <> []) (p_inputs p)
  /\ psbt_combine a p = Ok q /\ open_inputs q /\ open_outputs q /\ map in_partial_sigs (p_inputs q) = map in_partial_sigs (p_inputs p)
  /\ step q r /\ length (p_outputs r) = Datatypes.S (length (p_outputs p)).
Proof.
  exists toy, ex_cfg, toy_sign, toy_ms, hx_made, hx_signed, hx_again, hx_more.
  split; [exists hx_made; split; [exact hx_made_origin|constructor]|]. split.
  { exists hx_made. split; [exact hx_made_origin|].
    refine (Ss_more _ hx_filled _ (Ss_more _ hx_updater _ (Ss_more _ hx_made _ (Ss_none _) _) _) _).
    - apply St_updater. vm_compute. reflexivity.
    - assert (W : wf_psbt hx_filled) by (apply hx_wf; vm_compute; reflexivity).
      apply (St_fill hx_updater [hx_input] (p_outputs hx_updater)); [exact (wp_inputs _ W)|exact (wp_outputs _ W)|vm_compute; reflexivity|reflexivity].
    - apply (St_sign (ex_keys [ex_sec_a]) _ _ [(0, [PubKey true fx_key])]). vm_compute. reflexivity. }
  split; [vm_compute; discriminate|]. split; [vm_compute; discriminate|]. split; [apply Exists_cons_hd; vm_compute; discriminate|].
  split; [vm_compute; reflexivity|]. split; [vm_compute; reflexivity|]. split; [vm_compute; reflexivity|]. split; [vm_compute; reflexivity|].
  split; [|vm_compute; reflexivity].
  apply (St_construct KOutputsOnly hx_again hx_again [KcOutput (output_new (TxOut 700 p2wpkh_a))]).
  - vm_compute. reflexivity.
  - constructor; [|constructor]. cbn. now right.
  - constructor; [|constructor]. assert (W : wf_psbt hx_more) by (apply hx_wf; vm_compute; reflexivity).
    pose proof (wp_outputs _ W) as H. rewrite Forall_forall in H. apply H. vm_compute. right. now left.
  - vm_compute. reflexivity.
  - split; vm_compute; discriminate.
Qed.
Print Assumptions C128_refuted.
