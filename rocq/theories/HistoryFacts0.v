(** Facts about histories of v0 PSBTs. *)
From Verif Require Import Base OMap Consensus Ext Raw TapTree Serialize SerializeFacts SpecPsbt V2Roles V2Sign SpecSign V2RolesFacts V2Finalize SpecFinalize
  V0Error V0Input V0Output V0Psbt SpecPsbt0 V0PsbtFacts V0WireFacts V0PairFacts SpecExtract0 V0Sign SpecSign0 V0SignFacts V0Finalize SpecFinalize0
  V0Update SpecUpdate0 SpecWorkflow0 UpdateWfFacts PropertiesV0Codec PropertiesV0Combine PropertiesV0Sign PropertiesV0Finalize PropertiesV0Update SpecHistory0.
Local Open Scope N_scope.

Section Facts.
Context `{X : Ext} {L : ExtLaws X} `{S : SignExt} {LS : SignLaws X S} `{T : SchnorrExt} {LT : SchnorrLaws S T} {LD : DescLaws T} `{D : DescExt}
  `{M : MsExt} `{NM : !MsNmExt M}.

Lemma origin0_wf p : origin0 p -> wf_psbt0 p.
Proof.
  intros [t q Hw Hs H|bs q H]; [|exact (deserialize0_wf _ _ H)].
  assert (Hu : unsigned t).
  { unfold from_unsigned_tx, unsigned_tx_checks in H. cbn [p0_unsigned_tx] in H. apply bind_ok in H as ([] & H & _).
    now apply unsigned_checks_iff in H. }
  destruct (from_unsigned_wf t Hw Hs Hu) as (p' & E & _ & W & _). rewrite H in E. apply Ok_inj in E. now subst p'.
Qed.

Lemma finalize_inp_wf p n q : wf_psbt0 p -> finalize_inp_mut p n = Ok q ->
  (forall w ss, built false p n w ss -> wf_value ss /\ wf_witness_v w) -> wf_psbt0 q.
Proof.
  intros W H Hz. apply (C52_v0_single X M NM p n q (wp0_input_count _ W)) in H as (Hq & Hl & Hoth & i & i' & w & ss & Hi & Hi' & Hb & _ & F).
  destruct (Hz _ _ Hb) as [Z1 Z2].
  assert (Wi : Forall wf_input0 (p0_inputs q)).
  { pose proof (wp0_inputs _ W) as Wl. rewrite Forall_forall in *. intros j Hj. apply In_nth_error in Hj as [k Hk].
    destruct (N.eq_dec (N.of_nat k) n) as [E|E].
    - subst n. rewrite Nat2N.id in *. rewrite Hi' in Hk. injection Hk as <-. eapply finalized_wf; eauto using nth_error_In.
    - specialize (Hoth _ E). rewrite Nat2N.id in Hoth. rewrite Hoth in Hk. eauto using nth_error_In. }
  rewrite Hq. destruct W. constructor; cbn; auto. rewrite Hl. assumption.
Qed.

Lemma step0_wf p q : wf_psbt0 p -> step0 p q -> wf_psbt0 q.
Proof.
  intros W St. revert W.
  destruct St as [p ins outs Wi Wo Li Lo|n d d' p q i H Hd Hs Hi Hf|n d d' p q o H Hd Hs Ht Ho Hf|k p q used errs H|p o q Wo H Hz|p o q Wo H Hz
    |mall p q errs H Hz|n p q H Hz|p q H]; intros W.
  - destruct W. constructor; cbn; auto; congruence.
  - apply (update_input_wf n d d' p q i W H Hd Hs Hi). exact Hf.
  - apply (update_output_wf n d d' p q o W H Hd Hs Ho). split; assumption.
  - exact (C60_v0_wf X S T LS LT k p q used errs H W).
  - exact (proj2 (C57_v0_roundtrips_iff X L p o q W Wo H) Hz).
  - exact (proj2 (C57_v0_roundtrips_iff X L o p q Wo W H) Hz).
  - exact (C70_v0_wf X M NM mall p q errs W H Hz).
  - apply (finalize_inp_wf p n q W); [|exact Hz]. destruct H as [H|H]; exact H.
  - exact (deserialize0_wf _ _ H).
Qed.
Lemma steps0_wf p q : wf_psbt0 p -> steps0 p q -> wf_psbt0 q.
Proof. intros W. induction 1; eauto using step0_wf. Qed.

Lemma step0_tx p q : wf_psbt0 p -> step0 p q -> p0_unsigned_tx q = p0_unsigned_tx p.
Proof.
  intros W St. revert W.
  destruct St as [p ins outs Wi Wo Li Lo|n d d' p q i H Hd Hs Hi Hf|n d d' p q o H Hd Hs Ht Ho Hf|k p q used errs H|p o q Wo H Hz|p o q Wo H Hz
    |mall p q errs H Hz|n p q H Hz|p q H]; intros W.
  - reflexivity.
  - apply (C97_input X L T LD D) in H as (t & j & j' & e & _ & _ & _ & E & _). rewrite E. reflexivity.
  - apply (C97_output X L T LD D) in H as (j & j' & e & _ & _ & E & _). rewrite E. reflexivity.
  - apply sign0_at in H as (_ & _ & _ & [E _] & _). rewrite E. reflexivity.
  - exact (proj2 (C39_v0_same_transaction X p o q H)).
  - destruct (C39_v0_same_transaction X o p q H) as [E1 E2]. congruence.
  - exact (proj1 (C27_v0 X M NM mall p q errs H)).
  - refine (proj1 (C27_v0_single X M NM p q n _)). destruct H as [H|H]; exact H.
  - destruct (psbt0_roundtrip p W) as (q' & Hq & E & _). rewrite H in Hq. apply Ok_inj in Hq. subst q'.
    apply (f_equal p0_unsigned_tx) in E. symmetry. exact E.
Qed.
Lemma steps0_tx p q : wf_psbt0 p -> steps0 p q -> p0_unsigned_tx q = p0_unsigned_tx p.
Proof.
  intros W. induction 1 as [p|p q r H IH St]; [reflexivity|]. rewrite (step0_tx q r); auto. exact (steps0_wf p q W H).
Qed.
End Facts.
