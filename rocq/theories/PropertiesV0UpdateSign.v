(** C101-C103: checking and signing v0 PSBTs that were updated with descriptors. *)
From Coq Require Import Sorted.
From Verif Require Import Base OMap Consensus ConsensusFacts Ext ExtInstance Raw TapTree SpecCodec Serialize SerializeFacts MapCodec
  V2Global V2Input V2Psbt SampleV2 V2Roles Script SighashType V2Sign SignInstance SpecSign V2RolesFacts V2SignFacts
  V0Error V0Input V0Output V0Psbt SpecPsbt0 V0WireFacts SampleV0 SpecExtract0 V0ExtractFacts V0Sign SchnorrInstance SpecSign0 V0SignFacts
  V0SignResultFacts V0CheckFacts V0Finalize V0Update SpecUpdate0 V0UpdateFacts V0UpdateItemFacts V0UpdatePsbtFacts V0UpdateSignFacts DescInstance
  PropertiesV0Sign PropertiesV0Update.
Local Open Scope N_scope.

(** Used by the examples only; the theorems bind their own. *)
#[local] Existing Instance toy | 100.
#[local] Existing Instance toy_sign | 100.
#[local] Existing Instance toy_schnorr | 100.
#[local] Existing Instance toy_desc | 100.

(** ** C101: an updated input passes the checks of a signer *)

(** The checks of BIP-174. *)
Theorem C101_consistent_partial : forall (X : Ext) (L : ExtLaws X) (T : SchnorrExt) (LD : DescLaws T) (D : DescExt) n d d' p p' t i s',
  update_input n d p = (p', Ok tt) -> derives d d' -> proper d' -> spend_at p n (t, i) -> no_stale d' i ->
  (legacy d' -> i0_witness_utxo i = None) ->
  spend_at p' n s' -> consistent s'.
Proof.
  intros X L T LD D n d d' p p' t i s' H Hd Hp Hs [St1 St2] Hleg Hs'.
  destruct (update_input_after n d p p' H) as (t0 & i0 & i' & u & d0 & Hs0 & Hs0' & Hd0 & Hu & Eu & Hup & _ & _ & _).
  rewrite (derives_fun _ _ _ Hd0 Hd) in *. clear d0 Hd0. pose proof (spend_at_fun _ _ _ _ Hs0 Hs) as E. injection E as -> ->.
  rewrite (spend_at_fun _ _ _ _ Hs' Hs0') in *. clear s' Hs'.
  pose proof (updated_kept _ _ _ Hup) as Hk. destruct (updated_scripts _ _ _ Hup) as [Er Ew].
  assert (Hf : funds0 (t, i') u) by (apply (kept_funds i i' t u Hk); eapply spendable_funds; eassumption).
  assert (Er' : i0_redeem_script i' = redeem_of d').
  { rewrite Er. destruct (redeem_of d'); [reflexivity|]. destruct (i0_redeem_script i); [exfalso; apply St1; [discriminate|reflexivity]|reflexivity]. }
  assert (Ew' : i0_witness_script i' = witness_of d').
  { rewrite Ew. destruct (witness_of d'); [reflexivity|]. destruct (i0_witness_script i); [exfalso; apply St2; [discriminate|reflexivity]|reflexivity]. }
  assert (Hkind : forall o, spends_kind (t, i') o -> o = kind_for d').
  { intros o (v & Hv & Ho). rewrite (funds0_fun _ _ _ Hv Hf), Eu in Ho. cbn [snd] in Ho. eapply kind_unique; [exact Ho|]. apply desc_kind; [exact Hp|].
    intros s E. now rewrite Er', E. }
  constructor.
  - intros q E. cbn [fst snd] in *. rewrite (kp_non_witness _ _ Hk) in E. destruct Hu as [Hu _]. exact (so_txid _ _ Hu q E).
  - intros r E. cbn [snd] in E. rewrite Er' in E. exists u. split; [exact Hf|]. rewrite Eu.
    destruct d' as [keys s|k|k|keys s|keys s|k|keys s|k tree]; cbn [redeem_of spk_of] in *; try discriminate; injection E as <-; reflexivity.
  - intros w E. cbn [snd] in *. rewrite Ew' in E. exists u. split; [exact Hf|]. rewrite Eu, Er'.
    destruct d' as [keys s|k|k|keys s|keys s|k|keys s|k tree]; cbn [redeem_of witness_of spk_of] in *; try discriminate; injection E as <-; [left|right]; reflexivity.
  - intros Hw. cbn [snd] in Hw. rewrite (kp_witness _ _ Hk) in Hw.
    split; intros Ho; apply Hkind in Ho; destruct d'; cbn [kind_for legacy] in *; try discriminate; now apply Hw, Hleg.
Qed.
Print Assumptions C101_consistent_partial.

(** An update for a legacy descriptor accepts an input that also has a witness utxo. *)
Definition up_both : psbt0 :=
  up_psbt (fun s => set_i0_witness_utxo (Some (TxOut 5000 s)) (up_in s)) [DscPkh (up_key 1)].
Theorem C101_consistent_refuted : exists (d : descr dkey) d' (p p' : psbt0) s',
  @update_input toy toy_schnorr toy_desc 0 d p = (p', Ok tt) /\ derives d d' /\ @proper d'
  /\ Forall (fun i => i0_redeem_script i = None /\ i0_witness_script i = None) (p0_inputs p)
  /\ spend_at p' 0 s' /\ ~ @consistent toy s'.
Proof.
  exists (given (DscPkh (up_key 1))), (DscPkh (up_key 1)), up_both, (fst (update_input 0 (given (DscPkh (up_key 1))) up_both)).
  assert (E : exists s', spend_at (fst (update_input 0 (given (DscPkh (up_key 1))) up_both)) 0 s') by (eexists; vm_compute; reflexivity).
  destruct E as (s' & Hs'). exists s'.
  assert (Hok : update_input 0 (given (DscPkh (up_key 1))) up_both = (fst (update_input 0 (given (DscPkh (up_key 1))) up_both), Ok tt)).
  { rewrite (surjective_pairing (update_input 0 (given (DscPkh (up_key 1))) up_both)) at 1. f_equal. }
  split; [exact Hok|]. split; [apply given_derives|]. split; [exact I|]. split; [constructor; [split; reflexivity|constructor]|]. split; [exact Hs'|].
  intros [_ _ _ C].
  destruct (@update_input_after toy toy_laws toy_schnorr toy_desc_laws toy_desc _ _ _ _ Hok) as (t0 & i0 & i' & u & d0 & Hs0 & Hs0' & Hd0 & Hu & Eu & Hup & _ & _ & _).
  rewrite (derives_fun _ _ _ Hd0 (given_derives _)) in *. rewrite (spend_at_fun _ _ _ _ Hs' Hs0') in *. pose proof (updated_kept _ _ _ Hup) as Hk.
  destruct C as [C _].
  - cbn [snd]. rewrite (kp_witness _ _ Hk). apply spend_at_iff in Hs0 as [_ Hi]. cbn [snd] in Hi.
    assert (Hall : forallb (fun i => is_some (i0_witness_utxo i)) (p0_inputs up_both) = true) by (vm_compute; reflexivity).
    rewrite forallb_forall in Hall. specialize (Hall i0 (nth_error_In _ _ Hi)). intros E. rewrite E in Hall. discriminate.
  - apply C. exists u. split; [apply (kept_funds _ _ t0 u Hk); eapply spendable_funds; eassumption|]. rewrite Eu. change Bare with (kind_for (DscPkh (up_key 1))).
    apply desc_kind; [exact I|]. discriminate.
Qed.
Print Assumptions C101_consistent_refuted.

(** What the code checks: a nested P2WSH or P2SH input never passes, and with the whole transaction
    only, without a witness utxo, no input with scripts does. *)
Theorem C101_checks : forall (X : Ext) (L : ExtLaws X) (T : SchnorrExt) (LD : DescLaws T) (D : DescExt) n d d' p p' t i s',
  update_input n d p = (p', Ok tt) -> derives d d' -> proper d' -> spend_at p n (t, i) -> no_stale d' i ->
  (legacy d' -> i0_witness_utxo i = None) ->
  spend_at p' n s' ->
  (checked s' <->
   match d' with
   | DscSh _ _ | DscShWsh _ _ => False
   | DscShWpkh _ | DscWsh _ _ => i0_witness_utxo i <> None
   | _ => True
   end).
Proof.
  intros X L T LD D n d d' p p' t i s' H Hd Hp Hs [St1 St2] Hleg Hs'.
  pose proof (C101_consistent_partial X L T LD D n d d' p p' t i s' H Hd Hp Hs (conj St1 St2) Hleg Hs') as [Ctx _ _ Conly].
  destruct (update_input_after n d p p' H) as (t0 & i0 & i' & u & d0 & Hs0 & Hs0' & Hd0 & Hu & Eu & Hup & _ & _ & _).
  rewrite (derives_fun _ _ _ Hd0 Hd) in *. clear d0 Hd0. pose proof (spend_at_fun _ _ _ _ Hs0 Hs) as E. injection E as -> ->.
  rewrite (spend_at_fun _ _ _ _ Hs' Hs0') in *. clear s' Hs'.
  pose proof (updated_kept _ _ _ Hup) as Hk. destruct (updated_scripts _ _ _ Hup) as [Er Ew].
  assert (Er' : i0_redeem_script i' = redeem_of d').
  { rewrite Er. destruct (redeem_of d'); [reflexivity|]. destruct (i0_redeem_script i); [exfalso; apply St1; [discriminate|reflexivity]|reflexivity]. }
  assert (Ew' : i0_witness_script i' = witness_of d').
  { rewrite Ew. destruct (witness_of d'); [reflexivity|]. destruct (i0_witness_script i); [exfalso; apply St2; [discriminate|reflexivity]|reflexivity]. }
  pose proof (kp_witness _ _ Hk) as Kw.
  assert (Hwu : forall v, i0_witness_utxo i' = Some v -> v = u).
  { intros v Hv. rewrite Kw in Hv. destruct Hu as [Hu _]. exact (so_witness _ _ Hu v Hv). }
  assert (Hbase : (i0_witness_utxo (snd (t, i')) <> None -> ~ spends_kind (t, i') Bare)) by (intros Hw; exact (proj1 (Conly Hw))).
  split.
  - intros [_ _ Cr Cw]. cbn [snd] in *. rewrite Er' in Cr. rewrite Ew', Er' in Cw.
    destruct d' as [keys s|k|k|keys s|keys s|k|keys s|k tree]; cbn [redeem_of witness_of legacy spk_of] in *; try exact I.
    + destruct (Cw s eq_refl) as (v & Hv & _). rewrite Kw in Hv. congruence.
    + destruct (Cr s eq_refl) as (v & Hv & _). rewrite Kw, Hleg in Hv by exact I. discriminate.
    + destruct (Cr _ eq_refl) as (v & Hv & _). rewrite Kw in Hv. congruence.
    + destruct (Cw s eq_refl) as (v & Hv & _ & Hsh). rewrite (Hwu v Hv), Eu in Hsh. specialize (Hsh (sh_hash _)). discriminate.
  - intros Hc. constructor; cbn [snd]; [exact Hbase|exact Ctx| |].
    + intros r E. rewrite Er' in E. assert (Hsome : exists v, i0_witness_utxo i' = Some v).
      { rewrite Kw. destruct d' as [keys s|k|k|keys s|keys s|k|keys s|k tree]; cbn [redeem_of] in *; try discriminate; try contradiction.
        destruct (i0_witness_utxo i); [eauto|contradiction]. }
      destruct Hsome as [v Hv]. exists v. split; [exact Hv|]. rewrite (Hwu v Hv), Eu.
      destruct d' as [keys s|k|k|keys s|keys s|k|keys s|k tree]; cbn [redeem_of spk_of] in *; try discriminate; injection E as <-; reflexivity.
    + intros w E. rewrite Ew' in E. destruct d' as [keys s|k|k|keys s|keys s|k|keys s|k tree]; cbn [witness_of] in *; try discriminate; [|contradiction].
      injection E as <-. destruct (i0_witness_utxo i) as [v|] eqn:Ev; [|contradiction]. rewrite Kw. exists v. split; [reflexivity|]. rewrite (Hwu v Kw), Eu. cbn [spk_of].
      split.
      * intros h [(Eh & _) _]. unfold program_script in Eh. injection Eh as _ Eh. now symmetry.
      * intros Hsh. exfalso. revert Hsh. apply program_not_p2sh. lia.
Qed.
Print Assumptions C101_checks.

(** So an input updated with a nested P2WSH descriptor is consistent but not accepted. *)
Theorem C101_checks_refuted : exists (d : descr dkey) (p p' : psbt0),
  @update_input toy toy_schnorr toy_desc 0 d p = (p', Ok tt) /\ Forall (@consistent toy) (spends p')
  /\ one_map_per_input p' /\ @signer_checks toy p' = Err SCWitnessScriptMismatchShWsh.
Proof.
  set (d := nth 5 up_all up_tr). set (p := up_psbt up_in_w [d]).
  exists (given d), p, (fst (update_input 0 (given d) p)).
  assert (Hok : snd (update_input 0 (given d) p) = Ok tt) by (vm_compute; reflexivity).
  assert (Hok' : update_input 0 (given d) p = (fst (update_input 0 (given d) p), Ok tt)) by (rewrite <- Hok; apply surjective_pairing).
  split; [exact Hok'|]. split; [|split; vm_compute; reflexivity].
  assert (Hlen : length (spends (fst (update_input 0 (given d) p))) = 1%nat) by (vm_compute; reflexivity).
  apply Forall_forall. intros s' Hin. apply In_nth_error in Hin as (n & Hn).
  assert (n = 0%nat) as -> by (assert (n < 1)%nat by (rewrite <- Hlen; apply nth_error_Some; congruence); lia).
  destruct (@update_input_after toy toy_laws toy_schnorr toy_desc_laws toy_desc _ _ _ _ Hok') as (t0 & i0 & i' & u & d0 & Hs0 & _).
  eapply (C101_consistent_partial toy toy_laws toy_schnorr toy_desc_laws toy_desc 0 (given d) d p _ t0 i0 s' Hok' (given_derives _)); [exact I|exact Hs0| | |exact Hn].
  - split; intros _; discriminate.
  - intros [].
Qed.
Print Assumptions C101_checks_refuted.

Example C101_example :
  map (fun n => signer_checks (up_inputs (up_psbt up_in_w [nth n up_all up_tr]) [nth n up_all up_tr])) [1; 2; 4; 5; 6; 7]%nat
  = [Ok tt; Ok tt; Ok tt; Err SCWitnessScriptMismatchShWsh; Ok tt; Ok tt]
  /\ map (fun n => signer_checks (up_inputs (up_psbt up_in [nth n up_all up_tr]) [nth n up_all up_tr])) [0; 1; 2; 3; 4; 5; 6; 7; 8]%nat
  = [Ok tt; Ok tt; Err SCMissingTxOut; Err SCMissingTxOut; Err SCMissingTxOut; Err SCMissingTxOut; Ok tt; Ok tt; Ok tt]
  /\ Forall (fun d => no_stale d input0_default) up_all.
Proof.
  split; [vm_compute; reflexivity|]. split; [vm_compute; reflexivity|]. apply Forall_forall. intros d _. split; intros H; now destruct H.
Qed.

(** ** C102: an updated input is signed, with the digest of its descriptor *)

Lemma keys_for_in k l sks pk src sk : keys_for k l sks -> In (pk, src) l -> has_key k pk src sk -> In sk sks.
Proof.
  intros H. induction H as [|pk' src' l sk' sks Hk H IH|pk' src' l sks Hk H IH]; intros Hin Hsk; [destruct Hin| |].
  - destruct Hin as [E|Hin]; [|right; auto]. injection E as -> ->. left. destruct Hk as [A|[A A']], Hsk as [B|[B B']]; congruence.
  - destruct Hin as [E|Hin]; [|auto]. injection E as -> ->. destruct (Hk _ Hsk).
Qed.
Lemma pubkey_dec (a b : pubkey) : {a = b} + {a <> b}.
Proof. decide equality; [apply (list_eq_dec Coq.Strings.Byte.byte_eq_dec)|apply Bool.bool_dec]. Qed.
Lemma signature_by_in `{X : Ext} `{S : SignExt} sks m ty pk : In pk (map public_of sks) ->
  exists sk, public_of sk = pk /\ signature_by sks m ty pk (ESig (sign_ecdsa m (pv_secret sk)) ty).
Proof.
  induction sks as [|a r IH]; [intros []|]. intros Hin. destruct (in_dec pubkey_dec pk (map public_of r)) as [Hr|Hr].
  - destruct (IH Hr) as (sk & E & l1 & k0 & l2 & -> & H3). exists sk. split; [exact E|]. exists (a :: l1), k0, l2. auto.
  - destruct Hin as [E|Hin]; [|contradiction]. exists a. split; [exact E|]. exists [], a, r. auto.
Qed.

(** If the signer has the key for the source of a key of the descriptor, the input gets a signature of
    the digest for the descriptor, which is valid for the key if the signer's key is that key. *)
Theorem C102_signed : forall (X : Ext) (L : ExtLaws X) (S : SignExt) (LS : SignLaws X S) (T : SchnorrExt) (LD : DescLaws T) (D : DescExt)
    k n d d' p p1 p2 used errs t i ty pk src sk,
  update_input n d p = (p1, Ok tt) -> derives d d' -> proper d' -> ~ taproot d' ->
  Forall sorted_origins (p0_inputs p) -> spend_at p n (t, i) -> type_of_input0 i ty ->
  last_source (all_keys d') pk src -> has_key k pk src sk ->
  psbt0_sign k p1 = Ok (p2, used, errs) ->
  exists i2 u s,
    spent_output (t, i) u /\ to_script u = spk_of d' /\ nth_error (p0_inputs p2) (N.to_nat n) = Some i2
    /\ m_get sk_pubkey (public_of sk) (i0_partial_sigs i2) = Some (ESig s ty)
    /\ verify_ecdsa (secret_pubkey (pv_secret sk)) (digest_for d' (p0_unsigned_tx p) n (to_value u) ty) s = true
    /\ (exists ks, In (n, KeysEcdsa ks) used /\ In (public_of sk) ks) /\ (forall e, ~ In (n, e) errs).
Proof.
  intros X L S LS T LD D k n d d' p p1 p2 used errs t i ty pk src sk H Hd Hp Ht Hso Hs Hty Hsrc Hk Hsign.
  destruct (update_input_after n d p p1 H) as (t0 & i0 & i1 & u & d0 & Hs0 & Hs1 & Hd0 & Hu & Eu & Hup & Hrep & Etx & Hso1).
  rewrite (derives_fun _ _ _ Hd0 Hd) in *. clear d0 Hd0. pose proof (spend_at_fun _ _ _ _ Hs0 Hs) as E. injection E as -> ->.
  assert (Hsorted : Forall sorted_origins (p0_inputs p1)).
  { destruct Hrep as (l1 & l2 & E1 & E2 & _). rewrite E1 in Hso. rewrite E2. apply Forall_app in Hso as [A B]. apply Forall_app. split; [exact A|].
    constructor; [apply Hso1; exact (Forall_inv B)|exact (Forall_inv_tail B)]. }
  destruct (C81_signed X S T k p1 p2 used errs Hsign Hsorted) as [_ Hall]. destruct (Hall n (t, i1) Hs1) as (i2 & r & Hi2 & Hsig & Hused & Herr).
  pose proof (updated_kept _ _ _ Hup) as Hkept. destruct (updated_scripts _ _ _ Hup) as [Er Ew].
  assert (Hf : funds0 (t, i1) u) by (apply (kept_funds i i1 t u Hkept); eapply spendable_funds; eassumption).
  assert (Er' : forall c, redeem_of d' = Some c -> i0_redeem_script i1 = Some c) by (intros c E; now rewrite Er, E).
  assert (Ew' : forall c, witness_of d' = Some c -> i0_witness_script i1 = Some c) by (intros c E; now rewrite Ew, E).
  assert (Hkind : spends_kind (t, i1) (kind_for d')) by (exists u; split; [exact Hf|]; rewrite Eu; apply desc_kind; auto).
  assert (He : spends_ecdsa (t, i1)).
  { exists (kind_for d'). split; [exact Hkind|]. destruct d'; try discriminate. destruct Ht. do 2 eexists. reflexivity. }
  assert (Hm : to_sign0 p1 (p0_unsigned_tx p1) n (digest_for d' (p0_unsigned_tx p) n (to_value u) ty) ty).
  { exists (t, i1), u. split; [exact Hs1|]. split; [exact Hf|]. split; [apply (kept_type i i1 ty Hkept); exact Hty|].
    rewrite Etx. apply desc_message; auto. }
  assert (Hin : In (pk, src) (i0_bip32_derivation i1)).
  { destruct Hup as [ders _ Hders|ik tree o sc E _ _]; [|destruct Ht; do 2 eexists; exact E]. apply (m_get_in bkey bkey_inj). cbn. apply (proj2 (Hders pk src)). now left. }
  pose proof (spend_at_lt _ _ _ Hs1) as [_ Hlt].
  destruct Hsig as [sks m ty' new _ Hkeys Hm' Hnew|_ Hkeys|sks _ Hkeys Hne Hno|j xs Htap _ _ _|leaf x sk' Htap _ _|Hno _]; cbn [snd] in *.
  - destruct (to_sign0_fun p1 _ n _ _ _ _ Hlt Hm Hm') as [<- <-]. pose proof (keys_for_in k _ sks pk src sk Hkeys Hin Hk) as Hsk.
    destruct (signature_by_in sks (digest_for d' (p0_unsigned_tx p) n (to_value u) ty) ty (public_of sk) (in_map public_of _ _ Hsk)) as (sk' & Epub & Hby).
    exists (set_i0_partial_sigs new i1), u, (sign_ecdsa (digest_for d' (p0_unsigned_tx p) n (to_value u) ty) (pv_secret sk')).
    split; [exact (proj1 Hu)|]. split; [exact Eu|]. split; [exact Hi2|]. split; [apply Hnew; left; exact Hby|].
    split; [injection Epub as _ E; rewrite <- E; apply sign_verifies|].
    split; [eexists; split; [apply Hused; reflexivity|now apply in_map]|].
    intros e Hbad. assert (Hx : Some (KeysEcdsa (map public_of sks)) = None) by (apply Herr; eauto). discriminate.
  - destruct (keys_for_in k _ [] pk src sk Hkeys Hin Hk).
  - destruct (Hno _ _ Hm).
  - exfalso. eapply ecdsa_not_taproot; eassumption.
  - exfalso. eapply ecdsa_not_taproot; eassumption.
  - contradiction.
Qed.
Print Assumptions C102_signed.

Example C102_example :
  then_holds (psbt0_sign ex0_keys up_done) (fun '(p, used, errs) =>
    map fst errs = [] /\ map fst used = [0; 1; 2; 3; 4; 5; 6; 7; 8]
    /\ map (fun i => length (i0_partial_sigs i)) (p0_inputs p) = [1; 1; 2; 2; 1; 2; 0; 0; 1]%nat)
  /\ last_source (all_keys (nth 5 up_all up_tr)) (ex0_pk 2) (ex0_src 2) /\ has_key ex0_keys (ex0_pk 2) (ex0_src 2) (ex0_sk 2)
  /\ Forall proper up_all.
Proof.
  split; [vm_compute; auto|]. split.
  { exists [up_key 1], (up_key 2), []. split; [reflexivity|]. split; [reflexivity|]. split; [reflexivity|]. intros k []. }
  split; [left; reflexivity|].
  assert (Hnp : forall b v g, ~ program [b] v g).
  { intros b v g (E & _ & H). unfold program_script in E. apply (f_equal (@length byte)) in E. cbn [length app] in E. discriminate E. }
  repeat (apply Forall_cons; [try exact I|]); [exact (Hnp x53)| |constructor].
  split; [|exact (Hnp x55)]. intros (h & _ & E). discriminate.
Qed.

(** ** C103: an updated taproot input is signed *)

Lemma kept_refl i : kept i i.
Proof. now split. Qed.
Lemma funds_kept p p' us : p0_unsigned_tx p' = p0_unsigned_tx p -> Forall2 kept (p0_inputs p) (p0_inputs p') ->
  Forall2 funds0 (spends p) us -> Forall2 funds0 (spends p') us.
Proof.
  intros E Hk. unfold spends. rewrite E. generalize (tx_input (p0_unsigned_tx p)). intros ts. revert ts us.
  induction Hk as [|i i' l l' Hi Hk IH]; intros ts us H; [destruct ts; exact H|]. destruct ts as [|t ts]; [exact H|]. cbn [combine] in *.
  inversion H as [|? u ? us' H1 H2]; subst. constructor; [now apply (kept_funds i i' t u Hi)|auto].
Qed.
Lemma replaced_kept n i i' l l' : replaced n i i' l l' -> kept i i' -> Forall2 kept l l'.
Proof.
  intros (l1 & l2 & -> & -> & _) Hk. assert (Hr : forall l, Forall2 kept l l) by (induction l; constructor; auto; apply kept_refl).
  apply Forall2_app; [apply Hr|]. constructor; [exact Hk|apply Hr].
Qed.
Section Taproot.
Context `{X : Ext} {L : ExtLaws X} `{S : SignExt} `{T : SchnorrExt} {LD : DescLaws T} `{D : DescExt}.
Lemma to_sign_kept p p' n t i i' leaf m ty : p0_unsigned_tx p' = p0_unsigned_tx p -> replaced n i i' (p0_inputs p) (p0_inputs p') -> kept i i' ->
  spend_at p n (t, i) -> spend_at p' n (t, i') -> taproot_to_sign p n leaf m ty -> taproot_to_sign p' n leaf m ty.
Proof.
  intros E Hr Hk Hs Hs' (s & u & H1 & H2 & H3 & H4 & H5 & H6). rewrite (spend_at_fun _ _ _ _ H1 Hs) in *. exists (t, i'), u.
  split; [exact Hs'|]. split; [now apply (kept_funds i i' t u Hk)|]. split; [exact H3|]. split; [now apply (kept_tap_type i i' ty Hk)|]. rewrite E.
  split; [exact H5|]. destruct H6 as [H6|(H6 & H7 & us & H8 & H9)]; [left; exact H6|right]. split; [exact H6|].
  pose proof (replaced_kept _ _ _ _ _ Hr Hk) as Hk2. split.
  - unfold one_map_per_input in *. rewrite E, <- H7. clear - Hk2. induction Hk2; cbn; congruence.
  - exists us. split; [|exact H9]. eapply funds_kept; eassumption.
Qed.
Lemma to_sign_leaf p n leaf leaf' m ty : taproot_to_sign p n leaf m ty -> exists m', taproot_to_sign p n leaf' m' ty.
Proof.
  intros (s & u & H1 & H2 & H3 & H4 & H5 & H6). destruct H6 as [[H6 _]|(H6 & H7 & us & H8 & _)]; eexists; exists s, u;
    (split; [exact H1|]); (split; [exact H2|]); (split; [exact H3|]); (split; [exact H4|]); (split; [exact H5|]); [left|right]; eauto 8.
Qed.

(** The input after update and signing, when there is something to sign. *)
Lemma update_sign_taproot k n d ik tree p p1 p2 used errs t i leaf m ty :
  update_input n d p = (p1, Ok tt) -> derives d (DscTr ik tree) -> Forall sorted_origins (p0_inputs p) -> spend_at p n (t, i) ->
  taproot_to_sign p n leaf m ty -> psbt0_sign k p1 = Ok (p2, used, errs) ->
  exists i1 i2 u,
    spent_output (t, i) u /\ to_script u = spk_of (DscTr ik tree) /\ input_updated (DscTr ik tree) i i1 /\ kept i i1
    /\ nth_error (p0_inputs p2) (N.to_nat n) = Some i2
    /\ taproot_signed k p1 n i1 i2 /\ taproot_to_sign p1 n leaf m ty /\ vouts_in_bounds p1
    /\ (forall e, ~ In (n, e) errs).
Proof.
  intros H Hd Hso Hs Hm Hsign.
  destruct (update_input_after n d p p1 H) as (t0 & i0 & i1 & u & d0 & Hs0 & Hs1 & Hd0 & Hu & Eu & Hup & Hrep & Etx & Hso1).
  rewrite (derives_fun _ _ _ Hd0 Hd) in *. clear d0 Hd0. pose proof (spend_at_fun _ _ _ _ Hs0 Hs) as E. injection E as -> ->.
  assert (Hsorted : Forall sorted_origins (p0_inputs p1)).
  { destruct Hrep as (l1 & l2 & E1 & E2 & _). rewrite E1 in Hso. rewrite E2. apply Forall_app in Hso as [A B]. apply Forall_app. split; [exact A|].
    constructor; [apply Hso1; exact (Forall_inv B)|exact (Forall_inv_tail B)]. }
  destruct (C81_signed X S T k p1 p2 used errs Hsign Hsorted) as [_ Hall]. destruct (Hall n (t, i1) Hs1) as (i2 & r & Hi2 & Hsig & Hused & Herr).
  destruct (sign0_at k p1 p2 used errs Hsign) as (Hb & _).
  pose proof (updated_kept _ _ _ Hup) as Hkept.
  assert (Hf : funds0 (t, i1) u) by (apply (kept_funds i i1 t u Hkept); eapply spendable_funds; eassumption).
  assert (Ht : spends_taproot (t, i1)) by (exists u, (output_key (x_of ik) (tr_root tree)); split; [exact Hf|]; rewrite Eu; apply tr_key).
  pose proof (to_sign_kept p p1 n t i i1 leaf m ty Etx Hrep Hkept Hs Hs1 Hm) as Hm1.
  exists i1, i2, u. split; [exact (proj1 Hu)|]. split; [exact Eu|]. split; [exact Hup|]. split; [exact Hkept|]. split; [exact Hi2|].
  destruct Hsig as [sks m' ty' new He _ _ _|He _|sks He _ _ _|j xs _ _ Hj _|leaf' x sk' _ _ Hno|_ Hno];
    try (exfalso; eapply ecdsa_not_taproot; eassumption); try contradiction.
  - split; [exact Hj|]. split; [exact Hm1|]. split; [exact Hb|].
    intros e Hbad. assert (Hx : Some (KeysSchnorr xs) = None) by (apply Herr; eauto). discriminate.
  - destruct (to_sign_leaf p1 n leaf leaf' m ty Hm1) as [m' Hm']. destruct (Hno _ _ Hm').
Qed.
End Taproot.

(** The key path: if the internal key is in no leaf and the signer has the key for its source, the
    signature is valid for the key of the output that is spent. *)
Theorem C103_key_path_partial : forall (X : Ext) (L : ExtLaws X) (S : SignExt) (T : SchnorrExt) (LT : SchnorrLaws S T) (LD : DescLaws T) (D : DescExt)
    k n d ik tree p p1 p2 used errs t i m ty sk,
  update_input n d p = (p1, Ok tt) -> derives d (DscTr ik tree) -> Forall sorted_origins (p0_inputs p) -> spend_at p n (t, i) ->
  (forall h, ~ in_leaf tree (x_of ik) h) -> i0_tap_key_sig i = None ->
  k (KRBip32 (snd ik)) = inr (Some sk) -> x_public sk = x_of ik ->
  taproot_to_sign p n None m ty -> psbt0_sign k p1 = Ok (p2, used, errs) ->
  exists i2 u s key,
    nth_error (p0_inputs p2) (N.to_nat n) = Some i2 /\ i0_tap_key_sig i2 = Some (TSig s ty)
    /\ spent_output (t, i) u /\ p2tr_key (to_script u) key /\ verify_schnorr key m s = true /\ (forall e, ~ In (n, e) errs).
Proof.
  intros X L S T LT LD D k n d ik tree p p1 p2 used errs t i m ty sk H Hd Hso Hs Hno Hsig Hk Hpub Hm Hsign.
  destruct (update_sign_taproot k n d ik tree p p1 p2 used errs t i None m ty H Hd Hso Hs Hm Hsign)
    as (i1 & i2 & u & Hu & Eu & Hup & Hkept & Hi2 & Hts & Hm1 & Hb & Herr).
  assert (Hw : wanted k i1 None (x_of ik) sk /\ i0_tap_merkle_root i1 = tr_root tree).
  { pose proof (kp_key_sig _ _ Hkept) as Eks. destruct Hup as [ders Ht _|ik' tree' o sc E Ho _]; [destruct Ht; do 2 eexists; reflexivity|]. injection E as <- <-.
    split; [|reflexivity]. apply (WantKey k _ (x_of ik) (snd ik) sk); [|reflexivity|now rewrite Eks, Hsig|exact Hk].
    apply (m_get_in bkey bkey_inj). cbn. apply (proj2 (Ho _ _)). apply OriginInternal; [reflexivity|constructor|].
    intros h. split; [intros []|apply Hno]. }
  destruct Hw as [Hw Er]. destruct Hts as [_ Hkey _].
  exists i2, u, (sign_schnorr m (tweak_secret (pv_secret sk) (tr_root tree))), (output_key (x_of ik) (tr_root tree)).
  split; [exact Hi2|]. split.
  - apply Hkey. right. exists (x_of ik), sk, m, ty. split; [exact Hw|]. split; [exact Hm1|]. now rewrite Er.
  - split; [exact Hu|]. split; [rewrite Eu; apply tr_key|]. split; [|exact Herr]. rewrite <- Hpub. unfold x_public.
    rewrite <- (tweak_secret_key (S := S)). apply sign_schnorr_verifies.
Qed.
Print Assumptions C103_key_path_partial.

(** An internal key that is also in a leaf does not sign for the key path. *)
Theorem C103_internal_leaf : forall (X : Ext) (L : ExtLaws X) (S : SignExt) (T : SchnorrExt) (LD : DescLaws T) (D : DescExt)
    k n d ik tree p p1 p2 used errs t i i2 h,
  update_input n d p = (p1, Ok tt) -> derives d (DscTr ik tree) -> Forall sorted_origins (p0_inputs p) -> spend_at p n (t, i) ->
  in_leaf tree (x_of ik) h ->
  psbt0_sign k p1 = Ok (p2, used, errs) -> nth_error (p0_inputs p2) (N.to_nat n) = Some i2 ->
  i0_tap_key_sig i2 = i0_tap_key_sig i.
Proof.
  intros X L S T LD D k n d ik tree p p1 p2 used errs t i i2 h H Hd Hso Hs Hin Hsign Hi2.
  destruct (update_input_after n d p p1 H) as (t0 & i0 & i1 & u & d0 & Hs0 & Hs1 & Hd0 & Hu & Eu & Hup & Hrep & Etx & Hso1).
  rewrite (derives_fun _ _ _ Hd0 Hd) in *. clear d0 Hd0. pose proof (spend_at_fun _ _ _ _ Hs0 Hs) as E. injection E as -> ->.
  assert (Hsorted : Forall sorted_origins (p0_inputs p1)).
  { destruct Hrep as (l1 & l2 & E1 & E2 & _). rewrite E1 in Hso. rewrite E2. apply Forall_app in Hso as [A B]. apply Forall_app. split; [exact A|].
    constructor; [apply Hso1; exact (Forall_inv B)|exact (Forall_inv_tail B)]. }
  assert (Hsi : sorted_origins i1).
  { rewrite Forall_forall in Hsorted. apply Hsorted. apply spend_at_iff in Hs1 as [_ Hs1]. eapply nth_error_In; exact Hs1. }
  destruct (C81_signed X S T k p1 p2 used errs Hsign Hsorted) as [_ Hall]. destruct (Hall n (t, i1) Hs1) as (i2' & r & Hi2' & Hsig & _).
  rewrite Hi2 in Hi2'. injection Hi2' as <-. pose proof (kp_key_sig _ _ (updated_kept _ _ _ Hup)) as Ek. rewrite <- Ek.
  assert (Hno : forall x sk, ~ wanted k i1 None x sk).
  { intros x sk Hw. inversion Hw as [x0 src0 sk0 W1 W2 W3 W4 E1 E2 E3|]; subst. destruct (origins_pre i1 Hsi) as [_ Hg]. apply Hg in W1.
    destruct Hup as [ders Ht _|ik' tree' o sc E Ho _]; [destruct Ht; do 2 eexists; reflexivity|]. injection E as <- <-.
    injection W2 as <-. apply (proj1 (Ho _ _)) in W1. inversion W1 as [hs Ex Hasc Hh|hs0 hs src Hx|hs src Hx]; subst; try congruence.
    apply (proj2 (Hh h)) in Hin. destruct Hin. }
  destruct Hsig as [sks m' ty' new He _ _ _|He _|sks He _ _ _|j xs _ _ [_ Hkey _] _|leaf' x sk' _ _ _|_ _]; try reflexivity.
  apply some_iff_eq. intros g. rewrite (Hkey g). split; [|auto]. intros [E|(x & sk & m & ty & Hw & _)]; [exact E|destruct (Hno x sk Hw)].
Qed.
Print Assumptions C103_internal_leaf.

(** For instance with a tree that has the internal key as a fallback in a leaf, while the signer has its key. *)
Lemma no_key_sigs l : forallb (fun i => is_none (i0_tap_key_sig i)) l = true -> Forall (fun i => i0_tap_key_sig i = None) l.
Proof. intros H. rewrite forallb_forall in H. apply Forall_forall. intros i Hi. specialize (H i Hi). now destruct (i0_tap_key_sig i). Qed.
Definition up_both_paths : descr ddkey := DscTr (up_key 3) (Some (DLeaf (up_leaf x01 [3]))).
Theorem C103_key_path_refuted : exists (d : descr dkey) ik tree k sk (p p1 p2 : psbt0) used,
  @update_input toy toy_schnorr toy_desc 0 d p = (p1, Ok tt) /\ derives d (DscTr ik tree)
  /\ Forall (fun i => i0_tap_key_sig i = None) (p0_inputs p)
  /\ k (KRBip32 (snd ik)) = inr (Some sk) /\ @x_public toy_sign sk = x_of ik
  /\ (exists m ty, @taproot_to_sign toy_schnorr p 0 None m ty)
  /\ @psbt0_sign toy_sign toy_schnorr k p1 = Ok (p2, used, [])
  /\ Forall (fun i => i0_tap_key_sig i = None) (p0_inputs p2).
Proof.
  set (p := up_psbt up_in_w [up_both_paths]).
  assert (E : exists p2 used, psbt0_sign ex0_keys (fst (update_input 0 (given up_both_paths) p)) = Ok (p2, used, [])
    /\ forallb (fun i => is_none (i0_tap_key_sig i)) (p0_inputs p2) = true) by (do 2 eexists; split; vm_compute; reflexivity).
  destruct E as (p2 & used & E1 & E2).
  exists (given up_both_paths), (up_key 3), (Some (DLeaf (up_leaf x01 [3]))), ex0_keys, (ex0_sk 3), p, (fst (update_input 0 (given up_both_paths) p)), p2, used.
  assert (Hok : snd (update_input 0 (given up_both_paths) p) = Ok tt) by (vm_compute; reflexivity).
  split; [rewrite <- Hok; apply surjective_pairing|]. split; [apply given_derives|]. split; [repeat constructor|]. split; [reflexivity|]. split; [reflexivity|].
  split; [|split; [exact E1|]].
  - assert (Hex : exists m ty, psbt0_sighash_taproot p 0 (p0_unsigned_tx p) None = Ok (m, ty)) by (do 2 eexists; vm_compute; reflexivity).
    destruct Hex as (m & ty & Hm). exists m, ty. apply taproot0_iff; [|exact Hm]. constructor; [|constructor]. intros [H _]. discriminate H.
  - now apply no_key_sigs.
Qed.
Print Assumptions C103_key_path_refuted.

(** Leaves: if the signer has the key for the source that is listed, every leaf of the key gets a valid
    signature. *)
Theorem C103_leaves : forall (X : Ext) (L : ExtLaws X) (S : SignExt) (T : SchnorrExt) (LT : SchnorrLaws S T) (LD : DescLaws T) (D : DescExt)
    k n d ik tree p p1 p2 used errs t i m ty x h hs src sk,
  update_input n d p = (p1, Ok tt) -> derives d (DscTr ik tree) -> Forall sorted_origins (p0_inputs p) -> spend_at p n (t, i) ->
  in_leaf tree x h -> m_get sk_xleaf (x, h) (i0_tap_script_sigs i) = None ->
  origin_after ik tree (i0_tap_key_origins i) x (hs, src) ->
  k (KRBip32 src) = inr (Some sk) -> x_public sk = x ->
  taproot_to_sign p n (Some h) m ty -> psbt0_sign k p1 = Ok (p2, used, errs) ->
  exists i2 s,
    nth_error (p0_inputs p2) (N.to_nat n) = Some i2 /\ m_get sk_xleaf (x, h) (i0_tap_script_sigs i2) = Some (TSig s ty)
    /\ verify_schnorr x m s = true /\ (forall e, ~ In (n, e) errs).
Proof.
  intros X L S T LT LD D k n d ik tree p p1 p2 used errs t i m ty x h hs src sk H Hd Hso Hs Hin Hsig Horig Hk Hpub Hm Hsign.
  destruct (update_sign_taproot k n d ik tree p p1 p2 used errs t i (Some h) m ty H Hd Hso Hs Hm Hsign)
    as (i1 & i2 & u & Hu & Eu & Hup & Hkept & Hi2 & Hts & Hm1 & Hb & Herr).
  assert (Hhs : In h hs).
  { inversion Horig as [hs' Ex Ha Hh|hs0 hs' src' Hx Hg Ha Hh|hs' src' Hx Hg Ha Hh Hf]; subst; apply Hh; auto. }
  assert (Hw : wanted k i1 (Some h) x sk).
  { pose proof (kp_script_sigs _ _ Hkept) as Eks. destruct Hup as [ders Ht _|ik' tree' o sc E Ho _]; [destruct Ht; do 2 eexists; reflexivity|]. injection E as <- <-.
    apply (WantLeaf k _ x hs src sk h); [|exact Hhs|now rewrite Eks|exact Hk].
    apply (m_get_in bkey bkey_inj). cbn. apply (proj2 (Ho _ _)). exact Horig. }
  destruct Hts as [_ _ Hleaf]. exists i2, (sign_schnorr m (pv_secret sk)). split; [exact Hi2|]. split.
  - apply Hleaf. right. exists sk, m, ty. auto.
  - split; [|exact Herr]. rewrite <- Hpub. apply sign_schnorr_verifies.
Qed.
Print Assumptions C103_leaves.

Example C103_example :
  then_holds (psbt0_sign ex0_keys up_done) (fun '(p, used, errs) =>
    map (fun i => (is_some (i0_tap_key_sig i), length (i0_tap_script_sigs i))) (p0_inputs p)
    = [(false, 0); (false, 0); (false, 0); (false, 0); (false, 0); (false, 0); (true, 5); (true, 0); (false, 0)]%nat)
  /\ @in_leaf toy (Some up_tree) (ex0_xo 5) (leaf_hash (up_leaf x02 [5; 6])).
Proof.
  split; [vm_compute; reflexivity|]. exists (up_leaf x02 [5; 6]), (up_key 5). split; [right; left; reflexivity|]. split; [reflexivity|]. split; [left; reflexivity|reflexivity].
Qed.
