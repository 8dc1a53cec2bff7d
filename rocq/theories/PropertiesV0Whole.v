(** C117: the whole way from an unsigned transaction to a signed one, for outputs of single keys. *)
From Verif Require Import Base OMap Consensus ConsensusFacts Ext ExtInstance Raw TapTree SpecCodec Serialize SerializeFacts MapCodec
  SpecPsbt SpecRoles SampleV2 V2Roles Script SighashType V2Sign SignInstance SpecSign V2Finalize SpecFinalize MsInstance
  V0Error V0Input V0Output V0Psbt SpecPsbt0 V0WireFacts SampleV0 SpecExtract0 V0Sign SchnorrInstance SpecSign0 V0SignFacts
  V0Finalize SpecFinalize0 MsInstance0 V0Update SpecUpdate0 V0UpdateFacts DescInstance
  V0FinalizeFacts SpecWorkflow0 V0WorkflowFacts KeyInstance PropertiesV0Sign PropertiesV0Finalize PropertiesV0Update PropertiesV0Workflow.
Local Open Scope N_scope.

(** Used by the examples only; the theorems bind their own. *)
#[local] Existing Instance toy | 100.
#[local] Existing Instance toy_laws | 100.
#[local] Existing Instance toy_sign | 100.
#[local] Existing Instance toy_schnorr | 100.
#[local] Existing Instance toy_desc | 100.
#[local] Existing Instance toy_desc_laws | 100.
#[local] Existing Instance key_ms | 100.
#[local] Existing Instance key_nm | 100.

(** ** C117: from the unsigned transaction to the signed one *)

(** Every input is updated with its descriptor, in any order; then one call of the signer, one of the
    finalizer and one of the extractor give the transaction with valid signatures.  Between the steps
    the PSBT can be passed on as bytes. *)
Theorem C117_workflow : forall (X : Ext) (L : ExtLaws X) (S : SignExt) (LS : SignLaws X S) (T : SchnorrExt) (LT : SchnorrLaws S T) (LD : DescLaws T) (D : DescExt)
    (M : MsExt) (NM : MsNmExt M) (ML : MsLaws X M) (NL : MsNmLaws M NM) (KL : KeySpendLaws X S T M) mall prov l p p1,
  wf_psbt0 p -> Forall untouched (p0_inputs p) -> NoDup (map fst l) -> (forall n, n < blen (p0_inputs p) -> In n (map fst l)) ->
  (forall n d, In (n, d) l -> exists d', derives d d' /\ sound d' /\ signable prov d' /\
     forall ti i, spend_at p n (ti, i) -> typed_for (p0_unsigned_tx p) n d' i) ->
  updates l p p1 ->
  exists p2 used p3 t us, psbt0_sign prov p1 = Ok (p2, used, []) /\ finalize_any mall p2 = Ok (p3, []) /\ extract_checked p3 = Ok t
    /\ (forall q, In q [p1; p2; p3] -> exists q', psbt0_deserialize (psbt0_serialize q) = Ok q' /\ psbt0_eq q q')
    /\ strip_signatures t = p0_unsigned_tx p /\ spent_outputs p us
    /\ forall n d d' ti, In (n, d) l -> derives d d' -> nth_error (tx_input t) (N.to_nat n) = Some ti ->
         exists s u, spend_at p n s /\ spent_output s u /\ to_script u = spk_of d'
           /\ valid_spend (p0_unsigned_tx p) n us u (snd s) d' (ti_script_sig ti) (ti_witness ti).
Proof.
  intros X L S LS T LT LD D M NM ML NL KL mall prov l p p1 W Hun Hnd Hall Hd Hup.
  destruct (workflow mall prov l p p1 W Hun Hnd Hall Hd Hup) as (p2 & used & p3 & t & us & H1 & H2 & H3 & W1 & W2 & W3 & H4).
  exists p2, used, p3, t, us. split; [exact H1|]. split; [exact H2|]. split; [exact H3|]. split; [|exact H4].
  intros q [<-|[<-|[<-|[]]]]; apply psbt0_roundtrip; assumption.
Qed.
Print Assumptions C117_workflow.

(** Five inputs for four kinds of outputs, with four sighash types; the PSBT after the updates. *)
Definition wh_descs : list (descr ddkey) := [DscPkh (up_key 1); DscTr (up_key 3) None; DscWpkh (up_key 2); DscShWpkh (up_key 4); DscTr (up_key 5) None].
Definition wh_p : psbt0 :=
  let p := up_psbt up_in wh_descs in
  set_p0_inputs (set_nth 2 (set_i0_sighash_type (Some 0x83) (nth 2 (p0_inputs p) input0_default))
    (set_nth 4 (set_i0_sighash_type (Some 0x81) (nth 4 (p0_inputs p) input0_default)) (p0_inputs p))) p.
(** The inputs are updated in the order 3, 0, 4, 1, 2. *)
Definition wh_l : list (N * descr dkey) := map (fun n => (n, given (nth (N.to_nat n) wh_descs up_tr))) [3; 0; 4; 1; 2].
Fixpoint wh_update (l : list (N * descr dkey)) (p : psbt0) : option psbt0 :=
  match l with
  | [] => Some p
  | (n, d) :: l => match update_input n d p with (p1, Ok _) => wh_update l p1 | _ => None end
  end.
Lemma wh_update_ok l : forall p p1, wh_update l p = Some p1 -> updates l p p1.
Proof.
  induction l as [|[n d] l IH]; cbn [wh_update]; intros p p1; [intros [= <-]; constructor|].
  destruct (update_input n d p) as [p' [[]|e|]] eqn:E; [|discriminate..]. intros H. econstructor; [exact E|now apply IH].
Qed.
Definition wh_p1 : psbt0 := match wh_update wh_l wh_p with Some p => p | None => wh_p end.
Lemma wh_updates : updates wh_l wh_p wh_p1.
Proof.
  apply wh_update_ok. unfold wh_p1. assert (H : is_some (wh_update wh_l wh_p) = true) by (vm_compute; reflexivity).
  destruct (wh_update wh_l wh_p); [reflexivity|discriminate].
Qed.
Lemma wh_wf : wf_psbt0 wh_p.
Proof. apply (deserialize0_wf (psbt0_serialize wh_p)). vm_compute. reflexivity. Qed.

Definition untouchedb (i : input0) : bool :=
  is_empty (i0_partial_sigs i) && is_empty (i0_bip32_derivation i) && negb (is_some (i0_tap_key_sig i)) && is_empty (i0_tap_key_origins i).
Lemma untouchedb_ok i : untouchedb i = true -> untouched i.
Proof.
  unfold untouchedb, untouched. rewrite !Bool.andb_true_iff. destruct (i0_partial_sigs i), (i0_bip32_derivation i), (i0_tap_key_sig i), (i0_tap_key_origins i); cbn;
    intuition discriminate.
Qed.
Definition typedb (d : descr ddkey) (i : input0) : bool :=
  match i0_sighash_type i with None => true | Some ty => (ty =? 0x81) || (match d with DscTr _ _ => false | _ => ty =? 0x83 end) end.
Lemma typedb_ok t n d i : typedb d i = true -> typed_for t n d i.
Proof.
  unfold typedb. destruct (i0_sighash_type i) as [ty|] eqn:E.
  - intros H. apply Bool.orb_prop in H as [H|H].
    + apply N.eqb_eq in H. subst ty. destruct d; (exists 0x81; unfold type_of_input0, taproot_type_of_input; rewrite E; cbn [In]; intuition discriminate).
    + destruct d; try discriminate; (apply N.eqb_eq in H; subst ty; exists 0x83; unfold type_of_input0; rewrite E; cbn [In]; intuition).
  - intros _. destruct d; [exists 1|exists 1|exists 1|exists 1|exists 1|exists 1|exists 1|exists 0];
      unfold type_of_input0, taproot_type_of_input; rewrite E; cbn [In]; intuition discriminate.
Qed.
(** All keys are those of the signer. *)
Lemma wh_signable d : In d wh_descs -> signable ex0_keys d.
Proof.
  assert (K : forall n, In n [1; 2; 3; 4; 5] -> ex0_keys (KRBip32 (snd (up_key n))) = inr (Some (ex0_sk n)))
    by (intros n [<-|[<-|[<-|[<-|[<-|[]]]]]]; vm_compute; reflexivity).
  intros [<-|[<-|[<-|[<-|[<-|[]]]]]].
  - apply (SgEcdsa _ _ (up_key 1) (ex0_sk 1)); [left; reflexivity|left; apply K; cbn [In]; auto|reflexivity].
  - apply (SgTaproot _ (up_key 3) (ex0_sk 3)); [apply K; cbn [In]; auto|reflexivity].
  - apply (SgEcdsa _ _ (up_key 2) (ex0_sk 2)); [right; split; [left; reflexivity|reflexivity]|left; apply K; cbn [In]; auto|reflexivity].
  - apply (SgEcdsa _ _ (up_key 4) (ex0_sk 4)); [right; split; [right; reflexivity|reflexivity]|left; apply K; cbn [In]; auto|reflexivity].
  - apply (SgTaproot _ (up_key 5) (ex0_sk 5)); [apply K; cbn [In]; auto 6|reflexivity].
Qed.
Lemma wh_hyps n d : In (n, d) wh_l -> exists d', derives d d' /\ sound d' /\ signable ex0_keys d' /\
     forall ti i, spend_at wh_p n (ti, i) -> typed_for (p0_unsigned_tx wh_p) n d' i.
Proof.
  intros H. apply in_map_iff in H as (m & E & Hm). injection E as -> <-. set (d' := nth (N.to_nat n) wh_descs up_tr).
  assert (Hd : In d' wh_descs) by (apply nth_In; cbn [In] in Hm; cbn [wh_descs length]; lia).
  exists d'. split; [apply given_derives|]. split; [|split; [now apply wh_signable|]].
  - apply soundb_ok. assert (G : forallb soundb wh_descs = true) by (vm_compute; reflexivity). rewrite forallb_forall in G. now apply G.
  - intros ti i Hs. apply typedb_ok. apply spend_at_iff in Hs as [_ Hs].
    assert (G : forallb (fun m => match nth_error (p0_inputs wh_p) (N.to_nat m) with Some i => typedb (nth (N.to_nat m) wh_descs up_tr) i | None => false end) [3; 0; 4; 1; 2] = true)
      by (vm_compute; reflexivity).
    rewrite forallb_forall in G. specialize (G n Hm). now rewrite Hs in G.
Qed.

Example C117_example :
  wf_psbt0 wh_p /\ Forall untouched (p0_inputs wh_p) /\ NoDup (map fst wh_l) /\ (forall n, n < blen (p0_inputs wh_p) -> In n (map fst wh_l))
  /\ (forall n d, In (n, d) wh_l -> exists d', derives d d' /\ sound d' /\ signable ex0_keys d' /\
     forall ti i, spend_at wh_p n (ti, i) -> typed_for (p0_unsigned_tx wh_p) n d' i)
  /\ updates wh_l wh_p wh_p1
  /\ then_holds (psbt0_sign ex0_keys wh_p1) (fun r => then_holds (finalize_any false (fst (fst r))) (fun r => then_holds (extract_checked (fst r)) (fun t =>
       map (fun i => (blen (ti_script_sig i), map blen (ti_witness i))) (tx_input t)
       = [(69, []); (0, [64]); (0, [34; 33]); (23, [34; 33]); (0, [65])]))).
Proof.
  split; [exact wh_wf|]. split; [|split; [|split; [|split; [exact wh_hyps|split; [exact wh_updates|]]]]].
  - apply Forall_forall. intros i Hi. apply untouchedb_ok. assert (G : forallb untouchedb (p0_inputs wh_p) = true) by (vm_compute; reflexivity).
    rewrite forallb_forall in G. now apply G.
  - change (map fst wh_l) with [3; 0; 4; 1; 2]. repeat (apply NoDup_cons; [cbn [In]; lia|]). apply NoDup_nil.
  - intros n Hn. change (blen (p0_inputs wh_p)) with 5 in Hn. change (map fst wh_l) with [3; 0; 4; 1; 2]. cbn [In]. lia.
  - vm_compute. reflexivity.
Qed.
