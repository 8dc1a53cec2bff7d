(** C27, C28, C51, C52, C66, C69-C72: finalizing. *)
From Coq Require Import Sorted.
From Verif Require Import Base OMap Consensus ConsensusFacts Ext ExtInstance Raw RawFacts TapTree Serialize SerializeFacts MapCodec
  V2Global V2Input V2Output V2Psbt SpecCodec SpecPsbt V2PsbtFacts V2WireFacts V2CodecFacts V2Roles SpecRoles V2RolesFacts
  Script SighashType V2Sign SignInstance SpecSign V2SignFacts V2SignMergeFacts SampleV2 PropertiesV2Sign
  V2Finalize SpecFinalize V2FinalizeFacts MsInstance.
Local Open Scope N_scope.

(** Used by the examples only; the theorems bind their own. *)
#[local] Existing Instance toy | 100.
#[local] Instance ex_cfg : Cfg | 100 := cfg_of false false.
#[local] Existing Instance toy_sign | 100.
#[local] Existing Instance toy_ms | 100.

(** Values for the examples: outputs of one key, and PSBTs that spend them, signed. *)
Definition fx_key : bytes := ex_pk ex_sec_a.
Definition fx_wpkh_script : bytes := program_script 0 (hash160 fx_key).
Definition fx_code : bytes := match p2wpkh_script_code fx_wpkh_script with Some c => c | None => [] end.
Definition fx_wpkh : input := set_in_witness_utxo (Some (TxOut 5000 fx_wpkh_script)) (input_new (txid_a, 0)).
Definition fx_after : bytes := [x21] ++ fx_key ++ [xad; x60; xb1].
Definition fx_wsh : input :=
  set_in_min_height (Some 16) (set_in_witness_script (Some fx_after)
    (set_in_witness_utxo (Some (TxOut 5000 (program_script 0 (sha256 fx_after)))) (input_new (txid_a, 0)))).
Definition fx_pkh_script : bytes := p2pkh_script (hash160 fx_key).
Definition fx_pkh : input :=
  set_in_non_witness_utxo (Some (Tx 2 0 [TxIn txid_b 0 [] 0 []] [TxOut 5000 fx_pkh_script])) (input_new (txid_a, 0)).
Definition fx_tx (p : psbt) : tx := match unsigned_tx p with Ok t => t | _ => Tx 0 0 [] [] end.
(** The first input with a signature of the message. *)
Definition fx_sig (msg : bytes) (i : input) : input :=
  set_in_partial_sigs [(PubKey true fx_key, ESig (sign_ecdsa msg ex_sec_a) 1)] i.
Definition fx_signed (code : bytes) (i : input) : psbt :=
  ex_of 0 [fx_sig (segwit_digest (fx_tx (ex_of 0 [i])) 0 code 5000 1) i].
Definition fx_final (p : psbt) : psbt := match finalizer_finalize p with Ok q => q | _ => p end.

(** ** C52: all or nothing, inputs only *)

Theorem C52_new : forall p q,
  finalizer_new p = Ok q <->
  q = p /\ Forall (fun i => exists u, funds i u) (p_inputs p) /\ (exists n, bip370_lock_time p (Some n))
  /\ Forall sigs_match (p_inputs p).
Proof.
  intros p q. unfold finalizer_new. split.
  - intros H. apply bind_ok in H as ([] & H1 & H). apply bind_ok in H as (n & H2 & H). apply bind_ok in H as ([] & H3 & H). inj H.
    apply map_err_ok in H1, H2, H3. split; [reflexivity|]. split; [now apply all_funded_ok|].
    split; [exists n; now apply determine_ok_iff|now apply C50_check].
  - intros (-> & H1 & [n H2] & H3). apply all_funded_ok in H1. apply determine_ok_iff in H2. apply C50_check in H3.
    rewrite H1, H2, H3. reflexivity.
Qed.
Print Assumptions C52_new.

(** The values of the type Finalizer are the results of [new]. *)
Lemma value_facts p : finalizer_value p ->
  Forall (fun i => exists u, funds i u) (p_inputs p) /\ exists n, determine_lock_time p = Ok n.
Proof.
  intros H. apply C52_new in H as (_ & H1 & [n H2] & _). split; [assumption|]. exists n. now apply determine_ok_iff.
Qed.

Theorem C52_new_errors : forall p,
  match finalizer_new p with
  | Ok _ => True
  | Err (FNFundingUtxo _) => exists i, In i (p_inputs p) /\ forall u, ~ funds i u
  | Err (FNDetermineLockTime _) => bip370_lock_time p None
  | Err (FNPartialSigs _) => ~ Forall sigs_match (p_inputs p)
  | Panic => False
  end.
Proof.
  intros p. unfold finalizer_new. destruct (all_funded (p_inputs p)) as [[]|e|] eqn:E1; cbn [map_err bind].
  - destruct (determine_lock_time p) as [n|e|] eqn:E2; cbn [map_err bind].
    + destruct (check_partial_sigs_sighash_type p) as [[]|e|] eqn:E3; cbn [map_err bind]; [exact I| |].
      * rewrite <- C50_check. congruence.
      * exfalso. assert (N : check_partial_sigs_sighash_type p <> Panic); [|congruence].
        clear. unfold check_partial_sigs_sighash_type. generalize 0. generalize (p_inputs p). intros l.
        induction l as [|i l IH]; intros n; cbn [check_inputs_sigs]; [discriminate|].
        assert (Hs : forall ty l', check_sigs n ty l' <> Panic).
        { clear. intros ty. induction l' as [|[k s] l' IH]; cbn [check_sigs]; [discriminate|].
          destruct (ecdsa_from_standard _) as [f|]; cbn [ok_or bind]; [|discriminate].
          destruct (negb _); cbn [fail_if bind]; [discriminate|assumption]. }
        assert (Ht : forall ty, (bind (check_sigs n ty (in_partial_sigs i)) (fun _ => check_inputs_sigs (n + 1) l)) <> Panic).
        { intros ty. specialize (Hs ty (in_partial_sigs i)). destruct (check_sigs _ _ _); cbn [bind]; try congruence. }
        destruct (in_sighash_type i) as [s|]; [|apply Ht]. destruct (ecdsa_from_standard s); cbn [ok_or bind]; [apply Ht|discriminate].
    + apply determine_err_iff. eauto.
    + now apply determine_nopanic in E2.
  - assert (H : forall l e, all_funded l = Err e -> exists i, In i l /\ forall u, ~ funds i u).
    { clear. induction l as [|i l IH]; intros e; cbn [all_funded]; [discriminate|]. destruct (input_funding_utxo i) as [u|e'|] eqn:E; cbn [bind].
      - intros H. destruct (IH e H) as (j & H1 & H2). exists j. cbn. auto.
      - intros _. exists i. split; [cbn; auto|]. intros u Hu. apply funding_ok_iff in Hu. congruence.
      - discriminate. }
    eauto.
  - assert (H : forall l, all_funded l <> Panic); [|now apply H in E1].
    clear. induction l as [|i l IH]; cbn [all_funded]; [discriminate|]. pose proof (funding_nopanic i).
    destruct (input_funding_utxo i); cbn [bind]; congruence.
Qed.
Print Assumptions C52_new_errors.

Lemma finalize_forall2 {X : Ext} {C : Cfg} {M : MsExt} l0 l l' t us k :
  Forall (fun i => exists u, funds i u) l -> Forall2 (fin_rel l0) l l' -> verdicts t us k l' ->
  Forall2 (fun i i' => exists ss w, final_script_sig_and_witness l0 i = Ok (ss, w) /\ w <> []
    /\ in_witness_utxo i <> None /\ final_input ss (Some w) i i') l l'.
Proof.
  intros Hf H. revert k. induction H as [|i i' l l' Hi Hl IH]; intros k Hv; [constructor|]. inversion Hf as [|? ? [u Hu] Hf']; subst.
  destruct Hv as [Hv Hvs]. constructor; [|now apply (IH Hf' (k + 1))].
  apply (finalize_input_iff l0 i i' u Hu) in Hi as (ss & w & H1 & H2 & H3). exists ss, w. split; [assumption|].
  destruct (in_witness_utxo i) as [v|] eqn:E; cbn [is_some] in H3.
  - split; [now apply H2|]. split; [discriminate|assumption].
  - destruct Hv as (u' & ss' & w' & _ & _ & Hw & _). rewrite (fi_witness _ _ _ _ H3) in Hw. discriminate.
Qed.

Theorem C52_finalize : forall (X : Ext) (C : Cfg) (M : MsExt) p q,
  finalizer_value p -> finalizer_finalize p = Ok q ->
  p_global q = p_global p /\ p_outputs q = p_outputs p
  /\ Forall2 (fun i i' => exists ss w, computed p i ss w /\ w <> [] /\ in_witness_utxo i <> None
       /\ final_input ss (Some w) i i') (p_inputs p) (p_inputs q).
Proof.
  intros X C M p q Hp H. destruct (value_facts p Hp) as [Hf _]. apply (finalize_ok_iff p q Hf) in H as (Hg & Ho & Hi & t & us & _ & _ & Hv).
  split; [assumption|]. split; [assumption|]. exact (finalize_forall2 _ _ _ _ _ _ Hf Hi Hv).
Qed.
Print Assumptions C52_finalize.

(** The error names the first input that cannot be finalized. *)
Theorem C52_error : forall (X : Ext) (C : Cfg) (M : MsExt) p k e,
  finalizer_value p ->
  (finalizer_finalize p = Err (FEInput k e) <->
   exists l1 i l2, p_inputs p = l1 ++ i :: l2 /\ Forall (finalizes p) l1 /\ fails_with p i e /\ k = blen l1).
Proof.
  intros X C M p k e Hp. unfold finalizer_finalize. split.
  - intros H. destruct (finalize_inputs (p_inputs p) 0 (p_inputs p)) as [l|e'|] eqn:E; cbn [bind] in H.
    + destruct (interpreter_check _) as [[]| |]; cbn [map_err bind] in H; discriminate.
    + injection H as ->. apply finalize_inputs_err in E as (l1 & i & l2 & e' & E & H1 & H2 & H3). injection H3 as -> ->.
      exists l1, i, l2. auto.
    + discriminate.
  - intros (l1 & i & l2 & E & H1 & H2 & ->).
    assert (R : finalize_inputs (p_inputs p) 0 (p_inputs p) = Err (FEInput (blen l1) e)).
    { apply finalize_inputs_err. exists l1, i, l2, e. split; [assumption|]. split; [exact H1|]. split; [exact H2|]. f_equal. }
    now rewrite R.
Qed.
Print Assumptions C52_error.

(** [Finalizer::id] does not panic. *)
Theorem C52_id : forall (X : Ext) p, finalizer_value p ->
  exists h, finalizer_id p = Ok (E := Empty_set) h /\ psbt_id p = Ok h.
Proof.
  intros X p Hp. destruct (value_facts p Hp) as [_ [n Hn]]. pose proof (psbt_id_ok p n Hn) as H. eexists. unfold finalizer_id.
  rewrite H. split; reflexivity.
Qed.
Print Assumptions C52_id.

Example C52_example :
  let p := fx_signed fx_code fx_wpkh in
  finalizer_value p /\ then_holds (finalizer_finalize p) (fun q =>
    map in_final_script_sig (p_inputs q) = [Some []]
    /\ map (fun i => option_map (map blen) (in_final_script_witness i)) (p_inputs q) = [Some [34; 33]]
    /\ map in_partial_sigs (p_inputs q) = [[]])
  /\ finalizer_finalize (ex_of 0 [fx_wpkh]) = Err (FEInput 0 (FIFinal IEMissingPubkey))
  /\ finalizer_finalize (ex_of 0 (p_inputs p ++ [fx_wsh; fx_wpkh])) = Err (FEInput 1 (FIFinal IEMiniscript))
  /\ finalizer_new (ex_of 0 [input_new (txid_a, 0)]) = Err (FNFundingUtxo FMissingUtxo).
Proof. vm_compute. auto 12. Qed.

(** ** C72: what the interpreter is run on *)

Lemma spends_fun l : forall us us', spends l us -> spends l us' -> us = us'.
Proof.
  unfold spends. induction l as [|i l IH]; intros us us' H H'; inversion H; inversion H'; subst; [reflexivity|]. f_equal; eauto.
  eapply funds_unique; eauto.
Qed.
Lemma F2_length {A B} (R : A -> B -> Prop) l l' : Forall2 R l l' -> length l' = length l.
Proof. intros H. induction H; cbn; congruence. Qed.
Lemma F2_of_nth {A B} (R : A -> B -> Prop) : forall l l', length l' = length l ->
  (forall n a b, nth_error l n = Some a -> nth_error l' n = Some b -> R a b) -> Forall2 R l l'.
Proof.
  induction l as [|a l IH]; intros [|b l'] Hl H; try discriminate; constructor.
  - exact (H O a b eq_refl eq_refl).
  - apply IH; [now injection Hl|]. intros n. exact (H (Datatypes.S n)).
Qed.
Lemma F2_nth_r {A B} (R : A -> B -> Prop) l l' n b : Forall2 R l l' -> nth_error l' n = Some b -> exists a, nth_error l n = Some a /\ R a b.
Proof. intros H. revert n. induction H; intros [|n] Hn; try discriminate; cbn in *; [injection Hn as <-; eauto|eauto]. Qed.
Lemma fin_interp {M : MsExt} ss w i i' t us n r : final_input ss (Some w) i i' ->
  verdict t us n i' r <-> exists u, funds i u /\ ms_interpret (to_script u) ss w (2 ^ 32 - 1) 0 t n us = r.
Proof.
  intros F. assert (Hu : forall u, funds i' u <-> funds i u).
  { intros u. unfold funds. now rewrite (fi_witness_utxo _ _ _ _ F), (fi_non_witness_utxo _ _ _ _ F), (fi_index _ _ _ _ F). }
  unfold verdict. destruct (fi_locks _ _ _ _ F) as (-> & E1 & E2). unfold input_lock_time. rewrite E1, E2, (fi_script_sig _ _ _ _ F), (fi_witness _ _ _ _ F). split.
  - intros (u & ss' & w' & H1 & H2 & H3 & H4). injection H2 as <-. injection H3 as <-. exists u. rewrite <- Hu. auto.
  - intros (u & H1 & H2). exists u, ss, w. rewrite Hu. auto.
Qed.

(** Finalizing succeeds exactly when final fields are found for every input, every input has a
    witness utxo and the interpreter accepts them for the transaction with sequences 0 and the
    fallback lock time, told that the sequence is 2^32 - 1 and the lock time is 0. *)
Theorem C72_exact : forall (X : Ext) (C : Cfg) (M : MsExt) p q t us,
  finalizer_value p -> unsigned_tx p = Ok t -> spends (p_inputs p) us ->
  (finalizer_finalize p = Ok q <->
   p_global q = p_global p /\ p_outputs q = p_outputs p /\ length (p_inputs q) = length (p_inputs p)
   /\ forall n i i', nth_error (p_inputs p) n = Some i -> nth_error (p_inputs q) n = Some i' ->
      exists u ss w, in_witness_utxo i = Some u /\ computed p i ss w /\ w <> [] /\ final_input ss (Some w) i i'
        /\ ms_interpret (to_script u) ss w (2 ^ 32 - 1) 0 (relocked 0 (fallback_lock p) t) (N.of_nat n) us = IOk).
Proof.
  intros X C M p q t us Hp Ht Hus. destruct (value_facts p Hp) as [Hf _]. rewrite (finalize_ok_iff p q Hf). split.
  - intros (Hg & Ho & Hi & t' & us' & Ht' & Hus' & Hv). pose proof (fin_unsigned p q t Hf Hg Ho Hi Ht) as E. assert (t' = relocked 0 (fallback_lock p) t) by congruence. subst t'.
    assert (us' = us) by (eapply spends_fun; [exact Hus'|]; eapply fin_all_spends; eauto). subst us'.
    split; [assumption|]. split; [assumption|]. split; [eapply F2_length; eauto|]. intros n i i' Hn Hn'.
    pose proof (finalize_forall2 _ _ _ _ _ _ Hf Hi Hv) as H2. destruct (F2_nth_r _ _ _ _ _ H2 Hn') as (j & Hj & ss & w & H3 & H4 & H5 & H6).
    assert (j = i) by congruence. subst j. rewrite verdicts_nth in Hv. specialize (Hv n i' Hn'). replace (0 + N.of_nat n) with (N.of_nat n) in Hv by lia.
    apply (fin_interp ss w i i' _ us _ IOk H6) in Hv as (u & Hu & Hv). exists u, ss, w.
    destruct (in_witness_utxo i) as [v|] eqn:Ev; [|congruence]. assert (v = u). { destruct Hu as [Hu|[Hu _]]; congruence. } subst v. auto.
  - intros (Hg & Ho & Hl & H). split; [assumption|]. split; [assumption|].
    assert (Hi : Forall2 (fin_rel (p_inputs p)) (p_inputs p) (p_inputs q)).
    { apply F2_of_nth; [assumption|]. intros n i i' Hn Hn'. destruct (H n i i' Hn Hn') as (u & ss & w & H1 & H2 & H3 & H4 & _).
      apply (finalize_input_iff _ i i' u); [now left|]. exists ss, w. split; [exact H2|]. split; [auto|]. rewrite H1. exact H4. }
    split; [exact Hi|]. exists (relocked 0 (fallback_lock p) t), us. split; [now apply fin_unsigned|]. split; [eapply fin_all_spends; eauto|].
    apply verdicts_nth. intros n i' Hn'. destruct (F2_nth_r _ _ _ _ _ Hi Hn') as (i & Hn & _).
    destruct (H n i i' Hn Hn') as (u & ss & w & H1 & H2 & H3 & H4 & H5). apply (fin_interp ss w i i' _ us _ IOk H4). exists u. split; [now left|].
    exact H5.
Qed.
Print Assumptions C72_exact.

(** A script that needs a lock time is satisfied, yet finalizing fails: the interpreter rejects it
    although it accepts the same final fields for the transaction that was signed. *)
Theorem C72_own_transaction_refuted : exists (X : Ext) (C : Cfg) (S : SignExt) (M : MsExt) p t i u ss w,
  wf_psbt p /\ finalizer_value p /\ unsigned_tx p = Ok t /\ p_inputs p = [i] /\ funds i u /\ computed p i ss w
  /\ ms_interpret (to_script u) ss w (match in_sequence i with Some n => n | None => 0 end) (tx_lock_time t) t 0 [u] = IOk
  /\ finalizer_finalize p = Err (FEInterpreter (CEInput (CISatisfaction 0))).
Proof.
  exists toy, ex_cfg, toy_sign, toy_ms, (fx_signed fx_after fx_wsh), (fx_tx (ex_of 0 [fx_wsh])).
  exists (fx_sig (segwit_digest (fx_tx (ex_of 0 [fx_wsh])) 0 fx_after 5000 1) fx_wsh), (TxOut 5000 (program_script 0 (sha256 fx_after))).
  exists [], [ser_esig (ESig (sign_ecdsa (segwit_digest (fx_tx (ex_of 0 [fx_wsh])) 0 fx_after 5000 1) ex_sec_a) 1); fx_after].
  split; [apply ex_wf; vm_compute; reflexivity|]. split; [vm_compute; reflexivity|]. split; [vm_compute; reflexivity|].
  split; [reflexivity|]. split; [left; reflexivity|]. split; [vm_compute; reflexivity|]. split; vm_compute; reflexivity.
Qed.
Print Assumptions C72_own_transaction_refuted.

(** The interpreter does see what was signed when the lock time is the fallback and no sequence
    is set. *)
Theorem C72_own_transaction_partial : forall (X : Ext) (C : Cfg) (M : MsExt) p q t us,
  finalizer_value p -> unsigned_tx p = Ok t -> spends (p_inputs p) us ->
  bip370_lock_time p (Some (fallback_lock p)) -> Forall (fun i => in_sequence i = None \/ in_sequence i = Some 0) (p_inputs p) ->
  finalizer_finalize p = Ok q ->
  forall n i, nth_error (p_inputs p) n = Some i ->
  exists u ss w, funds i u /\ computed p i ss w /\ ms_interpret (to_script u) ss w (2 ^ 32 - 1) 0 t (N.of_nat n) us = IOk.
Proof.
  intros X C M p q t us Hp Ht Hus Hl Hs H n i Hn. destruct (proj1 (C72_exact X C M p q t us Hp Ht Hus) H) as (_ & _ & Hlen & Hq).
  destruct (nth_error (p_inputs q) n) as [i'|] eqn:Hn'.
  2:{ apply nth_error_None in Hn'. assert (n < length (p_inputs p))%nat by (apply nth_error_Some; congruence). lia. }
  destruct (Hq n i i' Hn Hn') as (u & ss & w & H1 & H2 & H3 & H4 & H5). exists u, ss, w. split; [now left|]. split; [assumption|].
  replace t with (relocked 0 (fallback_lock p) t); [assumption|]. apply determine_ok_iff in Hl. rewrite (unsigned_tx_ok _ _ Hl) in Ht. inj Ht.
  unfold relocked. cbn [tx_version tx_lock_time tx_input tx_output]. f_equal. clear -Hs. induction Hs as [|i l Hi _ IH]; [reflexivity|].
  cbn [map]. rewrite IH. unfold input_unsigned_tx_in. cbn [ti_txid ti_vout ti_script_sig ti_witness]. destruct Hi as [-> | ->]; reflexivity.
Qed.
Print Assumptions C72_own_transaction_partial.

Example C72_example :
  let p := fx_signed fx_code fx_wpkh in
  finalizer_value p /\ unsigned_tx p = Ok (fx_tx p) /\ spends (p_inputs p) [TxOut 5000 fx_wpkh_script]
  /\ determine_lock_time p = Ok (fallback_lock p) /\ map in_sequence (p_inputs p) = [None]
  /\ finalizer_finalize p = Ok (fx_final p).
Proof.
  cbv zeta. split; [vm_compute; reflexivity|]. split; [vm_compute; reflexivity|]. split; [constructor; [left; reflexivity|constructor]|].
  split; [vm_compute; reflexivity|]. split; vm_compute; reflexivity.
Qed.

(** ** C27: finalizing and the transaction *)

(** The transaction after finalizing: all sequences 0, the lock time the fallback. *)
Theorem C27_tx : forall (X : Ext) (C : Cfg) (M : MsExt) p q t,
  finalizer_value p -> finalizer_finalize p = Ok q -> unsigned_tx p = Ok t ->
  unsigned_tx q = Ok (relocked 0 (fallback_lock p) t).
Proof.
  intros X C M p q t Hp H Ht. destruct (value_facts p Hp) as [Hf _]. apply (finalize_ok_iff p q Hf) in H as (Hg & Ho & Hi & _).
  now apply fin_unsigned.
Qed.
Print Assumptions C27_tx.

(** It is the transaction before exactly when the lock time is the fallback and no input has a
    sequence other than 0. *)
Theorem C27_same_tx_partial : forall (X : Ext) (C : Cfg) (M : MsExt) p q,
  finalizer_value p -> finalizer_finalize p = Ok q ->
  (unsigned_tx q = unsigned_tx p <->
   bip370_lock_time p (Some (fallback_lock p)) /\ Forall (fun i => in_sequence i = None \/ in_sequence i = Some 0) (p_inputs p)).
Proof.
  intros X C M p q Hp H. destruct (value_facts p Hp) as [Hf [n Hn]]. pose proof (C27_tx X C M p q _ Hp H (unsigned_tx_ok _ _ Hn)) as Hq.
  rewrite Hq, (unsigned_tx_ok _ _ Hn), <- determine_ok_iff, Hn. unfold relocked. cbn [tx_version tx_lock_time tx_input tx_output]. split.
  - intros E. inj E. injection E as -> E. split; [reflexivity|]. clear -E. induction (p_inputs p) as [|i l IH]; [constructor|].
    cbn [map] in E. injection E as E1 E2. constructor; [|auto]. destruct (in_sequence i); cbn in E1; [right|left]; congruence.
  - intros [E1 E2]. inj E1. f_equal. f_equal. clear -E2. induction E2 as [|i l Hi _ IH]; [reflexivity|]. cbn [map]. rewrite IH.
    unfold input_unsigned_tx_in. cbn [ti_txid ti_vout ti_script_sig ti_witness]. destruct Hi as [-> | ->]; reflexivity.
Qed.
Print Assumptions C27_same_tx_partial.

Lemma fin_outpoints {X : Ext} {C : Cfg} {M : MsExt} l0 l l' : Forall (fun i => exists u, funds i u) l -> Forall2 (fin_rel l0) l l' -> map outpoint_of l' = map outpoint_of l.
Proof.
  intros H H2. induction H2 as [|i i' l l' Hi Hl IH]; [reflexivity|]. inversion H as [|? ? [u Hu] H']; subst. cbn [map]. rewrite IH by assumption.
  f_equal. eapply fin_rel_outpoint; eauto.
Qed.

(** The id is kept when the lock time is the fallback. *)
Theorem C27_same_id_partial : forall (X : Ext) (C : Cfg) (M : MsExt) p q,
  finalizer_value p -> finalizer_finalize p = Ok q -> bip370_lock_time p (Some (fallback_lock p)) -> psbt_id q = psbt_id p.
Proof.
  intros X C M p q Hp H Hl. destruct (value_facts p Hp) as [Hf _]. apply (finalize_ok_iff p q Hf) in H as (Hg & Ho & Hi & _).
  apply psbt_id_data; [|now rewrite Hg|eapply fin_outpoints; eauto|now rewrite Ho].
  apply determine_ok_iff in Hl. rewrite Hl. replace (fallback_lock p) with (fallback_lock q) by (unfold fallback_lock; now rewrite Hg).
  apply no_locks. eapply Forall_impl; [|exact (fin_all_locks _ _ _ Hf Hi)]. cbn. tauto.
Qed.
Print Assumptions C27_same_id_partial.

(** An input that asks for a lock time loses it; the signature is over the transaction without
    it, so that the interpreter accepts. *)
Definition fx_high : psbt :=
  ex_of 0 [set_in_min_height (Some 100) (set_in_sequence (Some 0) (fx_sig (segwit_digest (fx_tx (ex_of 0 [fx_wpkh])) 0 fx_code 5000 1) fx_wpkh))].
Theorem C27_keeps_transaction_refuted : exists (X : Ext) (C : Cfg) (M : MsExt) p q,
  wf_psbt p /\ finalizer_value p /\ finalizer_finalize p = Ok q /\ unsigned_tx q <> unsigned_tx p /\ psbt_id q <> psbt_id p.
Proof.
  exists toy, ex_cfg, toy_ms, fx_high, (fx_final fx_high). split; [apply ex_wf; vm_compute; reflexivity|]. split; [vm_compute; reflexivity|].
  split; [vm_compute; reflexivity|]. split; vm_compute; discriminate.
Qed.
Print Assumptions C27_keeps_transaction_refuted.

Example C27_example :
  let p := fx_signed fx_code fx_wpkh in
  unsigned_tx (fx_final p) = unsigned_tx p /\ psbt_id (fx_final p) = psbt_id p
  /\ option_map tx_lock_time (match unsigned_tx fx_high with Ok t => Some t | _ => None end) = Some 100
  /\ option_map tx_lock_time (match unsigned_tx (fx_final fx_high) with Ok t => Some t | _ => None end) = Some 0.
Proof. vm_compute. auto. Qed.

(** ** C28: finalized PSBTs *)

Theorem C28_accepted : forall (X : Ext) (C : Cfg) (M : MsExt) p q,
  finalizer_value p -> finalizer_finalize p = Ok q -> psbt_is_finalized q = true /\ extractor_new q = Ok q.
Proof.
  intros X C M p q Hp H. destruct (value_facts p Hp) as [Hf _]. apply (finalize_ok_iff p q Hf) in H as (Hg & Ho & Hi & t & us & _ & _ & Hv).
  apply verdicts_finalized in Hv. split; [now apply is_finalized_iff|]. apply extractor_new_ok. split; [reflexivity|]. split; [assumption|].
  exists (fallback_lock q). apply determine_ok_iff, no_locks. eapply Forall_impl; [|exact (fin_all_locks _ _ _ Hf Hi)]. cbn. tauto.
Qed.
Print Assumptions C28_accepted.

(** Legacy inputs: each input finalizes, the finalizer panics, with and without debug assertions. *)
Theorem C28_legacy_refuted : exists (X : Ext) (M : MsExt) p,
  wf_psbt p /\ finalizer_value p /\ (forall C : Cfg, Forall (finalizes p) (p_inputs p))
  /\ forall C : Cfg, finalizer_finalize p = Panic.
Proof.
  pose (p := ex_of 0 [fx_sig (legacy_digest (fx_tx (ex_of 0 [fx_pkh])) 0 fx_pkh_script 1) fx_pkh]).
  exists toy, toy_ms, p. assert (Hv : finalizer_value p) by (vm_compute; reflexivity).
  assert (Hu : Forall (fun i => exists u, funds i u) (p_inputs p)) by (apply value_facts in Hv; tauto).
  assert (Hf : forall C : Cfg, Forall (finalizes p) (p_inputs p)).
  { intros C. constructor; [|constructor]. unfold finalizes, finalize_input. cbn [p_inputs p ex_of].
    eexists. unfold input_finalize, input_has_funding_utxo, debug_assertions. destruct C as [a b c d]. destruct b; vm_compute; reflexivity. }
  split; [apply ex_wf; vm_compute; reflexivity|]. split; [assumption|]. split; [exact Hf|]. intros C.
  unfold finalizer_finalize, interpreter_check, panic_unless, debug_assertions, input_finalize. destruct C as [a b c d]. destruct b; vm_compute; reflexivity.
Qed.
Print Assumptions C28_legacy_refuted.

Lemma all_finalize {X : Ext} {C : Cfg} {M : MsExt} l0 l : Forall (fun i => exists i', finalize_input l0 i = Ok i') l -> exists l', Forall2 (fin_rel l0) l l'.
Proof. intros H. induction H as [|i l [i' Hi] _ [l' IH]]; [exists []; constructor|]. exists (i' :: l'). now constructor. Qed.

(** The finalizer panics exactly when every input finalizes and one has no witness utxo; without
    debug assertions the interpreter must also accept the inputs before it. *)
Theorem C28_panics : forall (X : Ext) (C : Cfg) (M : MsExt) p t us,
  finalizer_value p -> unsigned_tx p = Ok t -> spends (p_inputs p) us ->
  (finalizer_finalize p = Panic <->
   Forall (finalizes p) (p_inputs p) /\
   exists n i, nth_error (p_inputs p) n = Some i /\ in_witness_utxo i = None /\
     (debug_assertions = false ->
      forall k j u ss w, (k < n)%nat -> nth_error (p_inputs p) k = Some j -> in_witness_utxo j = Some u -> computed p j ss w ->
        ms_interpret (to_script u) ss w (2 ^ 32 - 1) 0 (relocked 0 (fallback_lock p) t) (N.of_nat k) us = IOk)).
Proof.
  intros X C M p t us Hp Ht Hus. destruct (value_facts p Hp) as [Hf Hn]. rewrite (finalize_panic_iff p Hf Hn).
  assert (Hfin : forall i i' u, funds i u -> fin_rel (p_inputs p) i i' -> (finalized i' <-> in_witness_utxo i <> None)).
  { intros i i' u Hu Hi. apply (finalize_input_iff _ i i' u Hu) in Hi as (ss & w & _ & _ & F). unfold finalized.
    rewrite (fi_script_sig _ _ _ _ F), (fi_witness _ _ _ _ F). destruct (in_witness_utxo i); cbn [is_some]; split; [discriminate|split; discriminate|intros [_ H]; congruence|congruence]. }
  assert (Hfu : forall n i, nth_error (p_inputs p) n = Some i -> exists u, funds i u).
  { intros n i H. rewrite Forall_forall in Hf. apply Hf. eapply nth_error_In; eauto. }
  split.
  - intros (q & t' & us' & Hg & Ho & Hi & Hq & Hus' & l1 & i' & l2 & E & Hni & Hv).
    assert (t' = relocked 0 (fallback_lock p) t) by (pose proof (fin_unsigned p q t Hf Hg Ho Hi Ht); congruence). subst t'.
    assert (us' = us) by (eapply spends_fun; [exact Hus'|]; eapply fin_all_spends; eauto). subst us'. split.
    { apply Forall_forall. intros j Hj. apply In_nth_error in Hj as [k Hk]. pose proof (F2_nth _ _ _ Hi k) as Hj. rewrite Hk in Hj.
      destruct (nth_error (p_inputs q) k) as [j'|]; [|contradiction]. exists j'. exact Hj. }
    assert (Hn' : nth_error (p_inputs q) (length l1) = Some i') by (rewrite E, nth_error_app2 by lia; now rewrite Nat.sub_diag).
    destruct (F2_nth_r _ _ _ _ _ Hi Hn') as (i & Hni' & Hri). exists (length l1), i. split; [assumption|].
    destruct (Hfu _ _ Hni') as [u Hu]. pose proof (Hfin i i' u Hu Hri) as Hfi. split; [destruct (in_witness_utxo i); [exfalso; apply Hni, Hfi; discriminate|reflexivity]|].
    intros D k j uj ss w Hk Hj Huj Hcj. specialize (Hv D). rewrite verdicts_nth in Hv.
    destruct (nth_error l1 k) as [j'|] eqn:Hj'. 2:{ apply nth_error_None in Hj'. lia. }
    specialize (Hv k j' Hj'). replace (0 + N.of_nat k) with (N.of_nat k) in Hv by lia.
    assert (Hj2 : nth_error (p_inputs q) k = Some j') by (rewrite E, nth_error_app1 by lia; assumption).
    destruct (F2_nth_r _ _ _ _ _ Hi Hj2) as (j0 & Hj0 & Hrj). assert (j0 = j) by congruence. subst j0.
    assert (Huj' : funds j uj) by now left. apply (finalize_input_iff _ j j' uj Huj') in Hrj as (ss' & w' & Hc' & Hw' & F).
    unfold computed in Hcj. assert (E2 : (ss, w) = (ss', w')) by congruence. injection E2 as <- <-. rewrite Huj in F. cbn [is_some] in F.
    apply (fin_interp ss w j j' _ us _ IOk F) in Hv as (u' & Hu' & Hv). assert (u' = uj) by (eapply funds_unique; eauto). now subst u'.
  - intros (Hall & n & i & Hni & Hwi & Hv).
    assert (Hq : exists l, Forall2 (fin_rel (p_inputs p)) (p_inputs p) l) by exact (all_finalize _ _ Hall).
    destruct Hq as [l Hi]. exists (Psbt (p_global p) l (p_outputs p)), (relocked 0 (fallback_lock p) t), us. cbn [p_global p_inputs p_outputs].
    split; [reflexivity|]. split; [reflexivity|]. split; [assumption|]. split; [apply (fin_unsigned p (Psbt (p_global p) l (p_outputs p)) t Hf eq_refl eq_refl Hi Ht)|].
    split; [eapply fin_all_spends; eauto|].
    assert (Hex : exists n i i', nth_error (p_inputs p) n = Some i /\ nth_error l n = Some i' /\ in_witness_utxo i = None
      /\ (forall k j, (k < n)%nat -> nth_error (p_inputs p) k = Some j -> in_witness_utxo j <> None)
      /\ (debug_assertions = false -> forall k j u ss w, (k < n)%nat -> nth_error (p_inputs p) k = Some j -> in_witness_utxo j = Some u -> computed p j ss w ->
        ms_interpret (to_script u) ss w (2 ^ 32 - 1) 0 (relocked 0 (fallback_lock p) t) (N.of_nat k) us = IOk)).
    { revert i Hni Hwi Hv. induction n as [n IH] using lt_wf_ind. intros i Hni Hwi Hv.
      destruct (existsb (fun j => is_none (in_witness_utxo j)) (firstn n (p_inputs p))) eqn:Ee.
      - apply existsb_exists in Ee as (j & Hj & Hnj). apply In_nth_error in Hj as [k Hk].
        assert (Hkn : (k < n)%nat). { assert (k < length (firstn n (p_inputs p)))%nat by (apply nth_error_Some; congruence). rewrite firstn_length in H. lia. }
        assert (Hk' : nth_error (p_inputs p) k = Some j) by (rewrite <- (firstn_skipn n (p_inputs p)), nth_error_app1; [assumption|apply nth_error_Some; congruence]).
        apply (IH k Hkn j Hk'); [destruct (in_witness_utxo j); [discriminate|reflexivity]|]. intros D k' j' u ss w Hlt. apply (Hv D). lia.
      - rewrite existsb_false in Ee. destruct (nth_error l n) as [i'|] eqn:Hl.
        2:{ apply nth_error_None in Hl. rewrite (F2_length _ _ _ Hi) in Hl. assert (n < length (p_inputs p))%nat by (apply nth_error_Some; congruence). lia. }
        exists n, i, i'. split; [assumption|]. split; [assumption|]. split; [assumption|]. split; [|assumption].
        intros k j Hk Hj Hn0. assert (Hin : In j (firstn n (p_inputs p))).
        { apply (nth_error_In _ k). rewrite <- Hj. rewrite <- (firstn_skipn n (p_inputs p)) at 2. rewrite nth_error_app1; [reflexivity|].
          rewrite firstn_length. assert (n < length (p_inputs p))%nat by (apply nth_error_Some; congruence). lia. }
        apply Ee in Hin. rewrite Hn0 in Hin. discriminate. }
    clear n i Hni Hwi Hv. destruct Hex as (n & i & i' & Hni & Hli & Hwi & Hbefore & Hv).
    pose proof Hli as Hsplit. apply nth_error_split in Hsplit as (l1 & l2 & E & Hl1). exists l1, i', l2. split; [assumption|].
    destruct (F2_nth_r _ _ _ _ _ Hi Hli) as (i0 & Hi0 & Hri). assert (i0 = i) by congruence. subst i0. destruct (Hfu _ _ Hni) as [u Hu].
    split; [rewrite (Hfin i i' u Hu Hri); tauto|]. intros D. apply verdicts_nth. intros k j' Hj'. assert (Hk : (k < n)%nat) by (rewrite <- Hl1; apply nth_error_Some; congruence).
    assert (Hj2 : nth_error l k = Some j') by (rewrite E, nth_error_app1 by lia; assumption).
    destruct (F2_nth_r _ _ _ _ _ Hi Hj2) as (j & Hj & Hrj). pose proof (Hbefore k j Hk Hj) as Hwj. destruct (in_witness_utxo j) as [uj|] eqn:Euj; [|congruence].
    assert (Huj : funds j uj) by now left. apply (finalize_input_iff _ j j' uj Huj) in Hrj as (ss & w & Hc & _ & F). rewrite Euj in F. cbn [is_some] in F.
    apply (fin_interp ss w j j' _ us _ IOk F). exists uj. split; [assumption|]. now apply (Hv D k j uj ss w).
Qed.
Print Assumptions C28_panics.

Example C28_example :
  let p := fx_signed fx_code fx_wpkh in
  finalizer_value p /\ extractor_new (fx_final p) = Ok (fx_final p)
  /\ finalizer_finalize (ex_of 0 (p_inputs p ++ [fx_sig [] fx_pkh])) = Err (FEInterpreter (CEInput (CISatisfaction 0)))
  /\ finalizer_finalize (ex_of 0 (fx_sig [] fx_pkh :: p_inputs p)) = Panic.
Proof. vm_compute. auto. Qed.

(** ** C51: absolute lock times *)

Lemma after_iff i n : sat_after (input_satisfier i) n = true <->
  exists m, (if n <? 500000000 then in_min_height i else in_min_time i) = Some m /\ n <= m.
Proof.
  cbn [sat_after input_satisfier]. unfold check_after, LOCK_TIME_THRESHOLD.
  destruct (if n <? 500000000 then in_min_height i else in_min_time i) as [m|]; split.
  - intros H. exists m. split; [reflexivity|lia].
  - intros (m' & H1 & H2). injection H1 as <-. lia.
  - discriminate.
  - intros (m' & H1 & _). discriminate.
Qed.

(** A lock time that the satisfier accepts is satisfied if the lock time of the transaction has
    its unit.  Missing: the other unit. *)
Theorem C51_same_unit_partial : forall p i n lock,
  Forall (fun i => opt_of wf_time (in_min_time i) /\ opt_of wf_height (in_min_height i)) (p_inputs p) ->
  In i (p_inputs p) -> bip370_lock_time p (Some lock) -> sat_after (input_satisfier i) n = true ->
  (n < 500000000 <-> lock < 500000000) -> bip65 n lock.
Proof.
  intros p i n lock Hwf Hi Hl Hs Hu. split; [assumption|]. apply after_iff in Hs as (m & Hm & Hle). apply determine_ok_iff in Hl.
  destruct (determine_sound p lock Hl Hwf) as [[H1 H2]|[[H1 H2]|H2]].
  - replace (n <? 500000000) with true in Hm by lia. destruct (H2 i Hi) as (h & Hh & Hle'); [right; congruence|]. rewrite Hm in Hh. injection Hh as <-. lia.
  - replace (n <? 500000000) with false in Hm by lia. destruct (H2 i Hi) as (h & Hh & Hle'); [left; congruence|]. rewrite Hm in Hh. injection Hh as <-. lia.
  - exfalso. apply (H2 i Hi). destruct (n <? 500000000); [right|left]; congruence.
Qed.
Print Assumptions C51_same_unit_partial.

(** For an input with one kind of lock time the satisfier is right.  Missing: inputs with both. *)
Theorem C51_one_kind_partial : forall p i n lock,
  Forall (fun i => opt_of wf_time (in_min_time i) /\ opt_of wf_height (in_min_height i)) (p_inputs p) ->
  In i (p_inputs p) -> bip370_lock_time p (Some lock) -> (only_time i \/ only_height i) -> sat_after (input_satisfier i) n = true ->
  bip65 n lock.
Proof.
  intros p i n lock Hwf Hi Hl Ho Hs. apply (C51_same_unit_partial p i n lock Hwf Hi Hl Hs). apply after_iff in Hs as (m & Hm & Hle).
  apply determine_ok_iff in Hl. destruct (determine_sound p lock Hl Hwf) as [[H1 H2]|[[H1 H2]|H2]].
  - destruct (H2 i Hi) as (h & Hh & _). { destruct Ho as [[? _]|[? _]]; [left|right]; assumption. }
    destruct Ho as [[_ Ho]|[_ Ho]]; [congruence|]. destruct (n <? 500000000) eqn:E; [lia|congruence].
  - destruct (H2 i Hi) as (h & Hh & _). { destruct Ho as [[? _]|[? _]]; [left|right]; assumption. }
    destruct Ho as [[_ Ho]|[_ Ho]]; [|congruence]. destruct (n <? 500000000) eqn:E; [congruence|lia].
  - exfalso. apply (H2 i Hi). destruct Ho as [[? _]|[? _]]; [left|right]; assumption.
Qed.
Print Assumptions C51_one_kind_partial.

(** Nothing that the input asks for is refused: if the input has a field of the unit of a lock time
    and the lock time is at most that, it is accepted; otherwise it is refused. *)
Theorem C51_exact : forall i n, sat_after (input_satisfier i) n = true <->
  exists m, (n < 500000000 /\ in_min_height i = Some m \/ 500000000 <= n /\ in_min_time i = Some m) /\ n <= m.
Proof.
  intros i n. rewrite after_iff. destruct (n <? 500000000) eqn:E; split; intros (m & H1 & H2); exists m; (split; [|assumption]).
  - left. split; [lia|assumption].
  - destruct H1 as [[_ H1]|[H1 _]]; [assumption|lia].
  - right. split; [lia|assumption].
  - destruct H1 as [[H1 _]|[_ H1]]; [lia|assumption].
Qed.
Print Assumptions C51_exact.

Definition fx_both : psbt :=
  ex_of 0 [set_in_min_time (Some 600000000) (set_in_min_height (Some 100) (set_in_sequence (Some 0) fx_wpkh));
           set_in_min_time (Some 500000001) (set_in_sequence (Some 0) (set_in_witness_utxo (Some (TxOut 5000 fx_wpkh_script)) (input_new (txid_b, 0))))].
(** An input with both kinds next to one that needs a time: heights are reported as satisfied. *)
Theorem C51_refuted : exists (X : Ext) (C : Cfg) p i n lock,
  wf_psbt p /\ finalizer_value p /\ In i (p_inputs p) /\ bip370_lock_time p (Some lock)
  /\ sat_after (input_satisfier i) n = true /\ ~ bip65 n lock.
Proof.
  exists toy, ex_cfg, fx_both, (set_in_min_time (Some 600000000) (set_in_min_height (Some 100) (set_in_sequence (Some 0) fx_wpkh))), 50, 600000000.
  split; [apply ex_wf; vm_compute; reflexivity|]. split; [vm_compute; reflexivity|]. split; [left; reflexivity|].
  split; [apply determine_ok_iff; vm_compute; reflexivity|]. split; [reflexivity|]. intros [[H _] _]. specialize (H ltac:(lia)). lia.
Qed.
Print Assumptions C51_refuted.

Example C51_example :
  let a := set_in_min_height (Some 100) fx_wpkh in
  let p := ex_of 0 [a; set_in_min_height (Some 120) (set_in_min_time (Some 600000000) fx_wpkh)] in
  determine_lock_time p = Ok 120 /\ sat_after (input_satisfier a) 100 = true /\ sat_after (input_satisfier a) 101 = false
  /\ sat_after (input_satisfier a) 500000000 = false.
Proof. vm_compute. auto. Qed.

(** ** C66: relative lock times *)

Lemma rel_spec s : s < 2 ^ 32 -> forall r l, rel_from_sequence s = Some l -> (rel_implied_by r l = true <-> bip112 r s).
Proof.
  intros Hs r l. unfold rel_from_sequence, bip112. destruct (N.testbit s 31) eqn:E31; [discriminate|].
  assert (H31 : s < 2 ^ 31). { apply N.testbit_false in E31. change (2 ^ 31) with 2147483648 in *. change (2 ^ 32) with 4294967296 in *. lia. }
  destruct (N.testbit s 22) eqn:E22; intros H; injection H as <-; [apply N.testbit_true in E22|apply N.testbit_false in E22];
    destruct r; cbn [rel_implied_by]; change 65536 with (2 ^ 16).
  - split; [discriminate|]. intros (_ & H & _). congruence.
  - split; [intros H; repeat split; [assumption|assumption|lia]|intros (_ & _ & H); lia].
  - split; [intros H; repeat split; [assumption|assumption|lia]|intros (_ & _ & H); lia].
  - split; [discriminate|]. intros (_ & H & _). congruence.
Qed.
Lemma rel_none s : s < 2 ^ 32 -> rel_from_sequence s = None -> 2 ^ 31 <= s.
Proof.
  intros Hs. unfold rel_from_sequence. destruct (N.testbit s 31) eqn:E; [|destruct (N.testbit s 22); discriminate]. intros _.
  apply N.testbit_true in E. change (2 ^ 31) with 2147483648 in *. change (2 ^ 32) with 4294967296 in *. lia.
Qed.

(** A relative lock is accepted exactly when the sequence of the input satisfies it. *)
Theorem C66_exact : forall i r, opt_of wf_u32 (in_sequence i) ->
  (sat_older (input_satisfier i) r = true <-> exists s, in_sequence i = Some s /\ bip112 r s).
Proof.
  intros i r Hw. cbn [sat_older input_satisfier]. unfold check_older. destruct (in_sequence i) as [s|]; cbn [opt_of] in Hw.
  - destruct (rel_from_sequence s) as [l|] eqn:E.
    + rewrite (rel_spec s Hw r l E). split; [eauto|]. intros (s' & H & H'). now injection H as ->.
    + pose proof (rel_none s Hw E). split; [discriminate|]. intros (s' & H' & H1 & _). injection H' as ->. lia.
  - split; [discriminate|]. intros (s & H & _). discriminate.
Qed.
Print Assumptions C66_exact.

(** The transaction that is signed satisfies it.  Missing: the version of the transaction, and
    what becomes of the sequence. *)
Theorem C66_signed_partial : forall p t n i ti r, opt_of wf_u32 (in_sequence i) ->
  unsigned_tx p = Ok t -> nth_error (p_inputs p) n = Some i -> nth_error (tx_input t) n = Some ti ->
  sat_older (input_satisfier i) r = true -> bip112 r (ti_sequence ti).
Proof.
  intros p t n i ti r Hw Ht Hn Hti H. apply (C66_exact i r Hw) in H as (s & Hs & H).
  unfold unsigned_tx in Ht. destruct (determine_lock_time p); cbn [bind] in Ht; try discriminate. inj Ht. cbn [tx_input] in Hti.
  rewrite nth_error_map, Hn in Hti. cbn [option_map] in Hti. injection Hti as <-. unfold input_unsigned_tx_in. cbn [ti_sequence]. rewrite Hs. exact H.
Qed.
Print Assumptions C66_signed_partial.

(** Relative locks have no effect in transactions of version 1 (BIP-68), the version is not looked at. *)
Theorem C66_version_refuted : exists (X : Ext) (C : Cfg) p t i r,
  wf_psbt p /\ unsigned_tx p = Ok t /\ In i (p_inputs p) /\ sat_older (input_satisfier i) r = true /\ tx_version t < 2.
Proof.
  exists toy, ex_cfg, (set_p_global (set_g_tx_version 1 (p_global (ex_of 0 [set_in_sequence (Some 10) fx_wpkh]))) (ex_of 0 [set_in_sequence (Some 10) fx_wpkh])).
  eexists. exists (set_in_sequence (Some 10) fx_wpkh), (RBlocks 10).
  split; [apply ex_wf; vm_compute; reflexivity|]. split; [vm_compute; reflexivity|]. split; [left; reflexivity|]. split; [reflexivity|]. reflexivity.
Qed.
Print Assumptions C66_version_refuted.

Lemma fin_extracted {X : Ext} {C : Cfg} {M : MsExt} p q t :
  finalizer_value p -> finalizer_finalize p = Ok q -> unsigned_tx p = Ok t ->
  exists t', extract_tx_unchecked q = Ok t' /\ extracted q (fallback_lock p) t' /\ strip_signatures t' = relocked (2 ^ 32 - 1) (fallback_lock p) t
    /\ Forall2 (fun i ti => computed p i (ti_script_sig ti) (ti_witness ti)) (p_inputs p) (tx_input t').
Proof.
  intros Hp H Ht. destruct (C28_accepted X C M p q Hp H) as [_ Hx]. apply extractor_new_ok in Hx as (_ & Hfin & _).
  destruct (C52_finalize X C M p q Hp H) as (Hg & Ho & Hi).
  assert (Hl : bip370_lock_time q (Some (fallback_lock p))).
  { replace (fallback_lock p) with (fallback_lock q) by (unfold fallback_lock; now rewrite Hg). apply determine_ok_iff, no_locks.
    clear -Hi. induction Hi as [|i i' l l' (ss & w & _ & _ & _ & F) _ IH]; constructor; [|assumption]. pose proof (fi_locks _ _ _ _ F). tauto. }
  destruct (extract_unchecked_ok q _ Hfin Hl) as (t' & Ht' & E). exists t'. split; [assumption|]. split; [exact E|].
  destruct E as [A1 A2 A3 A4]. unfold unsigned_tx in Ht. destruct (determine_lock_time p) as [m| |]; cbn [bind] in Ht; try discriminate. inj Ht.
  split.
  - unfold strip_signatures, relocked. cbn [tx_version tx_lock_time tx_input tx_output]. rewrite A1, A2, Hg. f_equal.
    + clear -A3 Hi. revert A3. generalize (tx_input t'). induction Hi as [|i i' l l' (ss & w & _ & _ & _ & F) _ IH]; intros ts A3; inversion A3 as [|? ti ? ts' Hti A3']; subst; [reflexivity|].
      cbn [map]. rewrite (IH _ A3'). f_equal. unfold input_unsigned_tx_in. cbn [ti_txid ti_vout ti_script_sig ti_witness]. destruct Hti as (H1 & _ & _ & H4).
      unfold outpoint_of in H1. rewrite (fi_txid _ _ _ _ F), (fi_index _ _ _ _ F) in H1. injection H1 as -> ->.
      destruct (fi_locks _ _ _ _ F) as (E & _ & _). rewrite E in H4. now rewrite H4.
    + rewrite Ho in A4. clear -A4. induction A4 as [|o [v s] l l' H F IH]; cbn; auto. rewrite IH. unfold output_tx_out. cbn in H. unfold payment_of in H. f_equal. congruence.
  - apply F2_of_nth; [now rewrite (F2_length _ _ _ A3), (F2_length _ _ _ Hi)|]. intros n i ti Hn Hti.
    destruct (F2_nth_r _ _ _ _ _ A3 Hti) as (i' & Hi' & _ & H2 & H3 & _). destruct (F2_nth_r _ _ _ _ _ Hi Hi') as (j & Hj & ss & w & Hc & _ & _ & F).
    assert (j = i) by congruence. subst j. rewrite (fi_script_sig _ _ _ _ F) in H2. rewrite (fi_witness _ _ _ _ F) in H3.
    injection H2 as <-. injection H3 as <-. exact Hc.
Qed.

(** No relative lock is satisfied by the transaction extracted after finalizing. *)
Theorem C66_lost : forall (X : Ext) (C : Cfg) (M : MsExt) p q t ti r,
  finalizer_value p -> finalizer_finalize p = Ok q -> extract_tx_unchecked q = Ok t -> In ti (tx_input t) -> ~ bip112 r (ti_sequence ti).
Proof.
  intros X C M p q t ti r Hp H Ht Hi. destruct (value_facts p Hp) as [_ [n Hn]].
  destruct (fin_extracted p q _ Hp H (unsigned_tx_ok _ _ Hn)) as (t' & Ht' & E & _). assert (t' = t) by congruence. subst t'.
  destruct (C52_finalize X C M p q Hp H) as (_ & _ & Hf). destruct E as [_ _ A3 _].
  apply In_nth_error in Hi as [k Hk]. destruct (F2_nth_r _ _ _ _ _ A3 Hk) as (i' & Hk' & _ & _ & _ & Hs).
  destruct (F2_nth_r _ _ _ _ _ Hf Hk') as (i & _ & ss & w & _ & _ & _ & F). destruct (fi_locks _ _ _ _ F) as (E & _ & _). rewrite E in Hs.
  intros [Hb _]. rewrite Hs in Hb. change (2 ^ 32 - 1) with 4294967295 in Hb. change (2 ^ 31) with 2147483648 in Hb. lia.
Qed.
Print Assumptions C66_lost.

(** An input whose sequence satisfies a lock is finalized and extracted, and no longer does. *)
Definition fx_older : psbt :=
  ex_of 0 [set_in_sequence (Some 10) (fx_sig (segwit_digest (fx_tx (ex_of 0 [fx_wpkh])) 0 fx_code 5000 1) fx_wpkh)].
Theorem C66_extracted_refuted : exists (X : Ext) (C : Cfg) (M : MsExt) p q t i ti r,
  wf_psbt p /\ finalizer_value p /\ p_inputs p = [i] /\ sat_older (input_satisfier i) r = true
  /\ finalizer_finalize p = Ok q /\ extract_tx_unchecked q = Ok t /\ tx_input t = [ti] /\ ~ bip112 r (ti_sequence ti).
Proof.
  exists toy, ex_cfg, toy_ms, fx_older, (fx_final fx_older), (match extract_tx_unchecked (fx_final fx_older) with Ok t => t | _ => Tx 0 0 [] [] end).
  exists (set_in_sequence (Some 10) (fx_sig (segwit_digest (fx_tx (ex_of 0 [fx_wpkh])) 0 fx_code 5000 1) fx_wpkh)).
  exists (match extract_tx_unchecked (fx_final fx_older) with Ok t => hd (TxIn [] 0 [] 0 []) (tx_input t) | _ => TxIn [] 0 [] 0 [] end), (RBlocks 10).
  split; [apply ex_wf; vm_compute; reflexivity|]. split; [vm_compute; reflexivity|]. split; [reflexivity|]. split; [vm_compute; reflexivity|].
  split; [vm_compute; reflexivity|]. split; [vm_compute; reflexivity|]. split; [vm_compute; reflexivity|].
  intros [H _]. vm_compute in H. discriminate.
Qed.
Print Assumptions C66_extracted_refuted.

Example C66_example :
  let i := set_in_sequence (Some (2 ^ 22 + 7)) fx_wpkh in
  sat_older (input_satisfier i) (RTime 7) = true /\ sat_older (input_satisfier i) (RTime 8) = false
  /\ sat_older (input_satisfier i) (RBlocks 1) = false /\ sat_older (input_satisfier fx_wpkh) (RBlocks 0) = false
  /\ sat_older (input_satisfier (set_in_sequence (Some (2 ^ 31)) fx_wpkh)) (RBlocks 0) = false.
Proof. vm_compute. auto. Qed.

(** ** C71: finalizing and extracting *)

(** The extracted transaction is the one of the PSBT with all sequences 2^32 - 1 and the lock time
    the fallback, with the final fields that were found. *)
Theorem C71_extracted : forall (X : Ext) (C : Cfg) (M : MsExt) p q t,
  finalizer_value p -> finalizer_finalize p = Ok q -> unsigned_tx p = Ok t ->
  exists t', extract_tx_unchecked q = Ok t' /\ strip_signatures t' = relocked (2 ^ 32 - 1) (fallback_lock p) t
    /\ Forall2 (fun i ti => computed p i (ti_script_sig ti) (ti_witness ti)) (p_inputs p) (tx_input t').
Proof. intros X C M p q t Hp H Ht. destruct (fin_extracted p q t Hp H Ht) as (t' & H1 & _ & H2). exists t'. auto. Qed.
Print Assumptions C71_extracted.

(** The transaction that the interpreter accepted is never the one that is extracted. *)
Theorem C71_never_checked : forall (X : Ext) (C : Cfg) (M : MsExt) p q t t',
  finalizer_value p -> p_inputs p <> [] -> finalizer_finalize p = Ok q ->
  unsigned_tx q = Ok t -> extract_tx_unchecked q = Ok t' -> strip_signatures t' <> t.
Proof.
  intros X C M p q t t' Hp Hne H Ht Ht'. destruct (value_facts p Hp) as [_ [n Hn]]. pose proof (unsigned_tx_ok _ _ Hn) as Hu.
  destruct (fin_extracted p q _ Hp H Hu) as (t1 & H1 & _ & H2 & _). assert (t1 = t') by congruence. subst t1.
  rewrite (C27_tx X C M p q _ Hp H Hu) in Ht. inj Ht. rewrite H2. unfold relocked. cbn [tx_version tx_lock_time tx_input tx_output].
  destruct (p_inputs p) as [|i l]; [congruence|]. cbn [map]. intros E. injection E as E. discriminate.
Qed.
Print Assumptions C71_never_checked.

(** A PSBT without lock times and sequences is signed, finalized and extracted.  The interpreter
    accepts the final fields for the transaction of the PSBT, not for the extracted one. *)
Definition fx_unsigned : psbt := ex_of 0 [set_in_bip32_derivations [(fx_key, ex_src 1)] fx_wpkh].
Definition fx_done : psbt := match signer_sign (ex_keys [ex_sec_a]) fx_unsigned with Ok (p, _) => p | _ => fx_unsigned end.
Definition fx_out : tx := match extract_tx_unchecked (fx_final fx_done) with Ok t => t | _ => Tx 0 0 [] [] end.
Theorem C71_valid_refuted : exists (X : Ext) (C : Cfg) (S : SignExt) (M : MsExt) keys p0 used p q u t t' ti,
  wf_psbt p0 /\ signer_sign keys p0 = Ok (p, used) /\ finalizer_value p /\ finalizer_finalize p = Ok q /\ spends (p_inputs p) [u]
  /\ unsigned_tx p = Ok t /\ extract_tx_unchecked q = Ok t' /\ tx_input t' = [ti]
  /\ ms_interpret (to_script u) (ti_script_sig ti) (ti_witness ti) (2 ^ 32 - 1) 0 t 0 [u] = IOk
  /\ ms_interpret (to_script u) (ti_script_sig ti) (ti_witness ti) (ti_sequence ti) (tx_lock_time t') t' 0 [u] = ISatisfaction.
Proof.
  exists toy, ex_cfg, toy_sign, toy_ms, (ex_keys [ex_sec_a]), fx_unsigned, (match signer_sign (ex_keys [ex_sec_a]) fx_unsigned with Ok (_, u) => u | _ => [] end).
  exists fx_done, (fx_final fx_done), (TxOut 5000 fx_wpkh_script), (fx_tx fx_done), fx_out, (hd (TxIn [] 0 [] 0 []) (tx_input fx_out)).
  split; [apply ex_wf; vm_compute; reflexivity|]. split; [vm_compute; reflexivity|]. split; [vm_compute; reflexivity|]. split; [vm_compute; reflexivity|].
  split; [constructor; [left; vm_compute; reflexivity|vm_compute; constructor]|]. split; [vm_compute; reflexivity|]. split; [vm_compute; reflexivity|].
  split; [vm_compute; reflexivity|]. split; vm_compute; reflexivity.
Qed.
Print Assumptions C71_valid_refuted.

Example C71_example : finalizer_value fx_done /\ finalizer_finalize fx_done = Ok (fx_final fx_done)
  /\ extract_tx_unchecked (fx_final fx_done) = Ok fx_out /\ map ti_sequence (tx_input fx_out) = [4294967295]
  /\ map ti_sequence (tx_input (fx_tx fx_done)) = [0].
Proof. split; [vm_compute; reflexivity|]. split; [vm_compute; reflexivity|]. vm_compute. auto. Qed.

(** ** C69: unknown fields *)

(** BIP-174: the finalizer keeps the fields of the outputs and the global map, and the utxo and the
    unknown fields of the inputs.  It keeps all but the last. *)
Theorem C69_partial : forall (X : Ext) (C : Cfg) (M : MsExt) p q,
  finalizer_value p -> finalizer_finalize p = Ok q ->
  p_global q = p_global p /\ p_outputs q = p_outputs p
  /\ map in_witness_utxo (p_inputs q) = map in_witness_utxo (p_inputs p)
  /\ map in_non_witness_utxo (p_inputs q) = map in_non_witness_utxo (p_inputs p)
  /\ (map in_unknowns (p_inputs q) = map in_unknowns (p_inputs p) <-> Forall (fun i => in_unknowns i = []) (p_inputs p))
  /\ (map in_proprietaries (p_inputs q) = map in_proprietaries (p_inputs p) <-> Forall (fun i => in_proprietaries i = []) (p_inputs p)).
Proof.
  intros X C M p q Hp H. destruct (C52_finalize X C M p q Hp H) as (Hg & Ho & Hi). split; [assumption|]. split; [assumption|].
  assert (Hi' : Forall2 (fun i i' => exists ss w, final_input ss (Some w) i i') (p_inputs p) (p_inputs q)).
  { eapply Forall2_impl; [|exact Hi]. intros i i' (ss & w & _ & _ & _ & F). exists ss, w. exact F. }
  clear -Hi'. induction Hi' as [|i i' l l' (ss & w & F) _ (IH1 & IH2 & IH3 & IH4)].
  { cbn [map]. split; [reflexivity|]. split; [reflexivity|]. split; split; constructor. }
  cbn [map]. rewrite IH1, IH2, (fi_witness_utxo _ _ _ _ F), (fi_non_witness_utxo _ _ _ _ F). destruct (fi_other _ _ _ _ F) as [-> ->].
  split; [reflexivity|]. split; [reflexivity|]. split; split.
  - intros E. injection E as E1 E2. constructor; [congruence|tauto].
  - intros E. inversion E as [|? ? E1 E2]; subst. rewrite E1. f_equal. tauto.
  - intros E. injection E as E1 E2. constructor; [congruence|tauto].
  - intros E. inversion E as [|? ? E1 E2]; subst. rewrite E1. f_equal. tauto.
Qed.
Print Assumptions C69_partial.

Definition fx_unknown : psbt :=
  ex_of 0 [set_in_unknowns [(Key x77 [x01], [x02])] (fx_sig (segwit_digest (fx_tx (ex_of 0 [fx_wpkh])) 0 fx_code 5000 1) fx_wpkh)].
Theorem C69_unknowns_refuted : exists (X : Ext) (C : Cfg) (M : MsExt) p q i i',
  wf_psbt p /\ finalizer_value p /\ finalizer_finalize p = Ok q /\ p_inputs p = [i] /\ p_inputs q = [i']
  /\ in_unknowns i <> [] /\ in_unknowns i' = [].
Proof.
  exists toy, ex_cfg, toy_ms, fx_unknown, (fx_final fx_unknown), (hd fx_wpkh (p_inputs fx_unknown)), (hd fx_wpkh (p_inputs (fx_final fx_unknown))).
  split; [apply ex_wf; vm_compute; reflexivity|]. split; [vm_compute; reflexivity|]. split; [vm_compute; reflexivity|].
  split; [vm_compute; reflexivity|]. split; [vm_compute; reflexivity|]. split; vm_compute; [discriminate|reflexivity].
Qed.
Print Assumptions C69_unknowns_refuted.

(** ** C70: finalized PSBTs can be stored *)

Theorem C70_wf : forall (X : Ext) (C : Cfg) (M : MsExt) p q,
  wf_psbt p -> finalizer_value p -> finalizer_finalize p = Ok q ->
  (forall i ss w, In i (p_inputs p) -> computed p i ss w -> wf_value ss /\ wf_witness_v w) -> wf_psbt q.
Proof.
  intros X C M p q Hwf Hp H Hc. destruct (C52_finalize X C M p q Hp H) as (Hg & Ho & Hi). pose proof (F2_length _ _ _ Hi) as Hl.
  assert (Hb : blen (p_inputs q) = blen (p_inputs p)) by (unfold blen; now rewrite Hl).
  destruct Hwf as [W1 W2 W3 W4 W5 W6 W7]. constructor; rewrite ?Hg, ?Ho, ?Hb; auto.
  apply Forall_forall. intros i' Hi'. apply In_nth_error in Hi' as [n Hn]. destruct (F2_nth_r _ _ _ _ _ Hi Hn) as (i & Hni & ss & w & Hcw & _ & _ & F).
  assert (Hin : In i (p_inputs p)) by (eapply nth_error_In; eauto). destruct (Hc i ss w Hin Hcw) as [Hss Hww].
  rewrite Forall_forall in W2. specialize (W2 i Hin).
  destruct (fi_locks _ _ _ _ F) as (? & ? & ?), (fi_ecdsa _ _ _ _ F) as (? & ? & ? & ? & ?), (fi_preimages _ _ _ _ F) as (? & ? & ? & ?),
    (fi_tap _ _ _ _ F) as (? & ? & ? & ? & ? & ?), (fi_sp _ _ _ _ F) as (Hs1 & Hs2), (fi_other _ _ _ _ F) as (? & ?).
  assert (Hm : forall K V (sk : K -> list N) (a : K -> Prop) (b : V -> Prop) m, m = [] -> map_of sk a b m).
  { intros K V sk a b m ->. split; constructor. }
  assert (Hpi : forall n h m, m = [] -> preimages n h m). { intros n0 h m ->. split; [now apply Hm|constructor]. }
  assert (Ho' : forall A (a : A -> Prop) o, o = None -> opt_of a o) by (intros A a o ->; exact I).
  constructor; auto.
  - rewrite (fi_txid _ _ _ _ F). now apply wi_txid.
  - rewrite (fi_txid _ _ _ _ F). now apply wi_txid_nonzero.
  - rewrite (fi_index _ _ _ _ F). now apply wi_index.
  - rewrite (fi_non_witness_utxo _ _ _ _ F). now apply wi_non_witness_utxo.
  - rewrite (fi_witness_utxo _ _ _ _ F). now apply wi_witness_utxo.
  - rewrite (fi_script_sig _ _ _ _ F). exact Hss.
  - rewrite (fi_witness _ _ _ _ F). exact Hww.
  - unfold sp_field. rewrite Hs1. destruct feat_sp; [now apply Hm|reflexivity].
  - unfold sp_field. rewrite Hs2. destruct feat_sp; [now apply Hm|reflexivity].
  - rewrite Hs1, Hs2. tauto.
Qed.
Print Assumptions C70_wf.

Theorem C70_roundtrip : forall (X : Ext) (L : ExtLaws X) (C : Cfg) (M : MsExt) p q,
  wf_psbt p -> no_tap_ties p -> finalizer_value p -> finalizer_finalize p = Ok q ->
  (forall i ss w, In i (p_inputs p) -> computed p i ss w -> wf_value ss /\ wf_witness_v w) ->
  psbt_deserialize (psbt_serialize q) = Ok q.
Proof.
  intros X L C M p q Hwf Ht Hp H Hc. apply psbt_roundtrip_exact; [eapply C70_wf; eauto|].
  unfold no_tap_ties in *. destruct (C52_finalize X C M p q Hp H) as (_ & Ho & _). now rewrite Ho.
Qed.
Print Assumptions C70_roundtrip.

Example C70_example : psbt_deserialize (psbt_serialize fx_done) = Ok fx_done /\ finalizer_finalize fx_done = Ok (fx_final fx_done)
  /\ psbt_deserialize (psbt_serialize (fx_final fx_done)) = Ok (fx_final fx_done).
Proof. split; [vm_compute; reflexivity|]. split; vm_compute; reflexivity. Qed.
