(** C127, C128 for v0: what holds of every v0 PSBT whatever has been done to it. *)
From Verif Require Import Base OMap Consensus Ext ExtInstance Raw TapTree Serialize SerializeFacts SpecPsbt V2Roles SpecRoles V2Sign SignInstance SpecSign V2RolesFacts V2Finalize
  SpecFinalize MsInstance V0Error V0Input V0Output V0Psbt SpecPsbt0 V0PsbtFacts V0WireFacts V0PairFacts SpecExtract0 V0Sign SchnorrInstance SpecSign0 V0SignFacts
  V0Finalize SpecFinalize0 MsInstance0 V0Update SpecUpdate0 DescInstance SpecWorkflow0 SampleV0 PropertiesV0Codec PropertiesV0Extract PropertiesV0Sign
  PropertiesV0Finalize SpecHistory0 HistoryFacts0.
Local Open Scope N_scope.

(** Used by the examples only; the theorems bind their own. *)
#[local] Existing Instance toy | 100.
#[local] Existing Instance toy_sign | 100.
#[local] Existing Instance toy_schnorr | 100.
#[local] Existing Instance toy_desc | 100.
#[local] Existing Instance toy_ms0 | 100.
#[local] Existing Instance toy_nm | 100.

(** ** C127: whatever is made can be stored *)

Theorem C127_v0_stored : forall (X : Ext) (L : ExtLaws X) (S : SignExt) (LS : SignLaws X S) (T : SchnorrExt) (LT : SchnorrLaws S T) (LD : DescLaws T) (D : DescExt)
  (M : MsExt) (NM : MsNmExt M) p,
  history0 p ->
  wf_psbt0 p /\ exists q, psbt0_deserialize (psbt0_serialize p) = Ok q /\ psbt0_eq p q /\ history0 q.
Proof.
  intros X L S LS T LT LD D M NM p (o & Ho & Hs). pose proof (steps0_wf o p (origin0_wf o Ho) Hs) as W. split; [exact W|].
  destruct (psbt0_roundtrip p W) as (q & Hq & E). exists q. split; [exact Hq|]. split; [exact E|].
  exists o. split; [exact Ho|]. exact (Ss0_more _ _ _ Hs (St0_store p q Hq)).
Qed.
Print Assumptions C127_v0_stored.

(** ** C128: the transaction stays *)

Theorem C128_v0_kept : forall (X : Ext) (L : ExtLaws X) (S : SignExt) (LS : SignLaws X S) (T : SchnorrExt) (LT : SchnorrLaws S T) (LD : DescLaws T) (D : DescExt)
  (M : MsExt) (NM : MsNmExt M) p q,
  history0 p -> steps0 p q -> p0_unsigned_tx q = p0_unsigned_tx p /\ strip_signatures (extract0_unchecked q) = p0_unsigned_tx p.
Proof.
  intros X L S LS T LT LD D M NM p q (o & Ho & Hs) H. pose proof (steps0_wf o p (origin0_wf o Ho) Hs) as W.
  pose proof (steps0_tx p q W H) as E. split; [exact E|]. rewrite <- E. apply (C47_unsigned_kept X). exact (steps0_wf p q W H).
Qed.
Print Assumptions C128_v0_kept.

(** From a transaction to the extracted one. *)
Theorem C128_v0_extracted : forall (X : Ext) (L : ExtLaws X) (S : SignExt) (LS : SignLaws X S) (T : SchnorrExt) (LT : SchnorrLaws S T) (LD : DescLaws T) (D : DescExt)
  (M : MsExt) (NM : MsNmExt M) t p q t',
  wf_tx t -> tx_base_size t <= 3999992 -> from_unsigned_tx t = Ok p -> steps0 p q -> extract0_tx q = Ok t' ->
  strip_signatures t' = t.
Proof.
  intros X L S LS T LT LD D M NM t p q t' Hw Hs H Hst Ht.
  assert (Et : p0_unsigned_tx p = t).
  { unfold from_unsigned_tx in H. apply bind_ok in H as (u & _ & H). apply Ok_inj in H. now subst p. }
  assert (Ho : origin0 p) by exact (Or0_made t p Hw Hs H).
  destruct (C128_v0_kept X L S LS T LT LD D M NM p q) as [_ E]; [exists p; split; [exact Ho|constructor]|exact Hst|].
  rewrite <- Et, <- E. f_equal. pose proof (steps0_wf p q (origin0_wf p Ho) Hst) as W.
  apply C47_extracted_only; [exact (wp0_input_count _ W)|].
  unfold extract0_tx in Ht. match type of Ht with extract0_with_fee_rate_limit ?m _ = _ => pose proof (C47_limit_same m q) as Q end. now rewrite Ht in Q.
Qed.
Print Assumptions C128_v0_extracted.

(** A history: made from a transaction, filled in, signed, finalized and stored. *)
Definition hy_filled : psbt0 := ex0_of [fy_wpkh; ex0_tr].
Definition hy_made : psbt0 := match from_unsigned_tx (p0_unsigned_tx hy_filled) with Ok p => p | _ => hy_filled end.
Definition hy_signed : psbt0 := match psbt0_sign ex0_keys hy_filled with Ok (p, _, _) => p | _ => hy_filled end.
Definition hy_final : psbt0 := match finalize_mut hy_signed with Ok (q, _) => q | _ => hy_signed end.
Lemma build_final_in `{X : Ext} `{M : MsExt} `{NM : !MsNmExt M} mall p n r : build_final mall p n = Ok r -> n < blen (p0_inputs p).
Proof.
  unfold build_final. intros H. apply bind_ok in H as (spk & _ & H). apply bind_ok in H as (i & Hi & _). unfold expect in Hi.
  destruct (nth_N (p0_inputs p) n) as [j|] eqn:E; [|discriminate]. destruct (N.lt_ge_cases n (blen (p0_inputs p))) as [Q|Q]; [exact Q|].
  apply nth_N_none in Q. congruence.
Qed.
Lemma hy_sizes n w ss : built false (stage hy_signed hy_final n) n w ss -> wf_value ss /\ wf_witness_v w.
Proof.
  intros H. assert (Hn : n = 0 \/ n = 1 \/ 2 <= n) by lia. unfold built in H. destruct Hn as [-> |[-> |Hn]].
  - assert (E : exists w' ss', build_final false (stage hy_signed hy_final 0) 0 = Ok (w', ss') /\ wf_value ss' /\ wf_witness_v w').
    { do 2 eexists. split; [vm_compute; reflexivity|]. split; vm_compute; repeat split; discriminate. }
    destruct E as (w' & ss' & E & G). rewrite E in H. now injection H as <- <-.
  - assert (E : exists w' ss', build_final false (stage hy_signed hy_final 1) 1 = Ok (w', ss') /\ wf_value ss' /\ wf_witness_v w').
    { do 2 eexists. split; [vm_compute; reflexivity|]. split; vm_compute; repeat split; discriminate. }
    destruct E as (w' & ss' & E & G). rewrite E in H. now injection H as <- <-.
  - exfalso. apply build_final_in in H.
    assert (L1 : length (p0_inputs hy_signed) = 2%nat) by (vm_compute; reflexivity). assert (L2 : length (p0_inputs hy_final) = 2%nat) by (vm_compute; reflexivity).
    revert H L1 L2. generalize hy_signed hy_final. intros p q H L1 L2. unfold stage, blen in H. cbn [p0_inputs set_p0_inputs] in H.
    rewrite app_length, firstn_length, skipn_length, L1, L2 in H. lia.
Qed.
Lemma hy_origin : origin0 hy_made.
Proof.
  assert (W : wf_psbt0 hy_filled) by (apply ex0_wf; vm_compute; reflexivity).
  apply (Or0_made (p0_unsigned_tx hy_filled)); [exact (wp0_tx _ W)|vm_compute; discriminate|vm_compute; reflexivity].
Qed.
Lemma hy_steps : steps0 hy_made hy_final.
Proof.
  refine (Ss0_more _ hy_final _ (Ss0_more _ hy_signed _ (Ss0_more _ hy_filled _ (Ss0_more _ hy_made _ (Ss0_none _) _) _) _) _).
  - assert (W : wf_psbt0 hy_filled) by (apply ex0_wf; vm_compute; reflexivity).
    assert (E : hy_filled = set_p0_outputs (p0_outputs hy_filled) (set_p0_inputs (p0_inputs hy_filled) hy_made)) by (vm_compute; reflexivity).
    rewrite E. apply St0_fill; [exact (wp0_inputs _ W)|exact (wp0_outputs _ W)|vm_compute; reflexivity|vm_compute; reflexivity].
  - assert (E : exists used errs, psbt0_sign ex0_keys hy_filled = Ok (hy_signed, used, errs)) by (do 2 eexists; vm_compute; reflexivity).
    destruct E as (used & errs & E). exact (St0_sign ex0_keys _ _ used errs E).
  - apply (St0_finalize false _ _ []); [vm_compute; reflexivity|exact hy_sizes].
  - apply St0_store. vm_compute. reflexivity.
Qed.
Example C127_v0_example : history0 hy_final.
Proof. exists hy_made. split; [exact hy_origin|exact hy_steps]. Qed.
Example C128_v0_example : from_unsigned_tx (p0_unsigned_tx hy_filled) = Ok hy_made /\ tx_base_size (p0_unsigned_tx hy_filled) <= 3999992 /\ steps0 hy_made hy_final
  /\ exists t, extract0_tx hy_final = Ok t /\ map (fun i => length (ti_witness i)) (tx_input t) = [2; 1]%nat.
Proof.
  split; [vm_compute; reflexivity|]. split; [vm_compute; discriminate|]. split; [exact hy_steps|].
  eexists. split; vm_compute; reflexivity.
Qed.
