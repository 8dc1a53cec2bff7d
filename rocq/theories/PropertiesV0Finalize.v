(** C27, C28, C48, C51, C52, C66, C69-C72 for v0, and C88-C93: finalizing v0 PSBTs
    (src/v0/miniscript/finalizer.rs, src/v0/miniscript/mod.rs:257-718). *)
From Coq Require Import Sorted.
From Verif Require Import Base OMap Consensus ConsensusFacts Ext ExtInstance Raw RawFacts TapTree Serialize SerializeFacts MapCodec V2Global V2Input
  SpecCodec V2Psbt SpecPsbt V2Roles SpecRoles V2RolesFacts SampleV2 Script SighashType V2Sign SignInstance SpecSign V2SignFacts
  V2Finalize SpecFinalize MsInstance PropertiesV2Finalize V2SpendFacts V0Error V0Input V0Output V0Psbt SpecPsbt0 V0PsbtFacts V0WireFacts SampleV0
  PropertiesV0Codec SpecExtract0 V0ExtractFacts V0Sign SchnorrInstance SpecSign0 V0SignFacts PropertiesV0Sign
  V0Finalize SpecFinalize0 V0FinalizeFacts V0SpendFacts MsInstance0.
Local Open Scope N_scope.

(** Used by the examples only; the theorems bind their own. *)
#[local] Existing Instance toy | 100.
#[local] Existing Instance toy_sign | 100.
#[local] Existing Instance toy_schnorr | 100.
#[local] Existing Instance toy_ms0 | 100.
#[local] Existing Instance toy_nm | 100.

(** ** Examples *)

(** Inputs that need key 1: to its witness hash, to the witness script or_d(pkh(key 2),pk(key 1));
    an input that needs a preimage of one of two hashes. *)
Definition fy_utxo (script : bytes) (i : input0) : input0 := set_i0_witness_utxo (Some (TxOut 5000 script)) i.
Definition fy_keys (l : list N) : list (bytes * keysource) := fold_right (fun n m => m_put bkey (ex0_pk n) (ex0_src n) m) [] l.
Definition fy_wpkh : input0 := set_i0_bip32_derivation (fy_keys [1; 2]) (fy_utxo (program_script 0 (hash160 (ex0_pk 1))) input0_default).
Definition fy_or : bytes := or_pkh_script (hash160 (ex0_pk 2)) (ex0_pk 1).
Definition fy_wsh : input0 :=
  set_i0_bip32_derivation (fy_keys [1]) (set_i0_witness_script (Some fy_or) (fy_utxo (program_script 0 (sha256 fy_or)) input0_default)).
Definition fy_pre (b : byte) : bytes := repeat b 32.
Definition fy_sha : bytes := or_sha_script (sha256 (fy_pre x01)) (sha256 (fy_pre x02)).
Definition fy_hash : input0 :=
  set_i0_sha256_preimages (m_put bkey (sha256 (fy_pre x01)) (fy_pre x01) (m_put bkey (sha256 (fy_pre x02)) (fy_pre x02) []))
    (set_i0_witness_script (Some fy_sha) (fy_utxo (program_script 0 (sha256 fy_sha)) input0_default)).
Definition fy_sign (p : psbt0) : psbt0 := match psbt0_sign ex0_keys p with Ok (p', _, _) => p' | _ => p end.
Definition fy_final (p : psbt0) : psbt0 := match finalize_mut p with Ok (q, _) => q | _ => p end.
Definition fy_done : psbt0 := fy_sign (ex0_of [fy_wpkh; ex0_tr]).

(** ** C52: what is finalized *)

Definition finalize_any `{X : Ext} `{M : MsExt} `{NM : !MsNmExt M} (mall : bool) (p : psbt0) := if mall then finalize_mall_mut p else finalize_mut p.

Lemma finalize_any_steps `{X : Ext} `{M : MsExt} `{NM : !MsNmExt M} mall p : one_map_per_input p ->
  match finalize_any mall p with
  | Ok (q, errs) => exists r l, steps mall p [] (p0_inputs p) r l /\ q = set_p0_inputs r p /\ errs = map snd l
  | Err _ => False
  | Panic => Exists vout_out_of_bounds (spends p)
  end.
Proof.
  intros Hone. pose proof (finalize_all_spec mall p (p0_inputs p) [] [] Hone) as H. cbn [app length] in H. rewrite set_p0_inputs_same in H.
  unfold finalize_any, finalize_mut, finalize_mall_mut, input_indices0. now destruct mall.
Qed.
Lemma stage_funding p q n : q = set_p0_inputs (p0_inputs q) p -> Forall2 same_utxos (p0_inputs p) (p0_inputs q) -> same_funding p (stage p q n).
Proof.
  intros Hq H. split; [reflexivity|]. unfold stage. cbn [p0_inputs set_p0_inputs]. generalize (N.to_nat n) as k. clear Hq n. induction H as [|i j l l' Hs Hl IH]; intros k.
  - destruct k; constructor.
  - destruct k as [|k]; cbn [firstn skipn app].
    + constructor; [split; reflexivity|]. clear. induction l; constructor; [split; reflexivity|assumption].
    + constructor; [assumption|apply IH].
Qed.

(** Nothing but inputs is changed.  In order, each input either gets the witness and script sig
    found for it, which the interpreter accepts for the transaction, or it is left unchanged and an
    error is reported. *)
Theorem C52_v0_result : forall (X : Ext) (M : MsExt) (NM : MsNmExt M) mall p q errs,
  one_map_per_input p -> finalize_any mall p = Ok (q, errs) ->
  q = set_p0_inputs (p0_inputs q) p /\ length (p0_inputs q) = length (p0_inputs p)
  /\ (forall n i i', nth_error (p0_inputs p) (N.to_nat n) = Some i -> nth_error (p0_inputs q) (N.to_nat n) = Some i' ->
       (exists w ss, built mall (stage p q n) n w ss /\ accepted p n w ss /\ final_input0 w ss i i')
       \/ i' = i /\ exists e, fails0 mall (stage p q n) n e)
  /\ exists l, errs = map snd l /\ StronglySorted N.lt (map fst l)
       /\ forall n e, In (n, e) l <-> n < blen (p0_inputs p) /\ fails0 mall (stage p q n) n e.
Proof.
  intros X M NM mall p q errs Hone H. pose proof (finalize_any_steps mall p Hone) as Hs. rewrite H in Hs. destruct Hs as (r & l & Hst & Hq & He).
  assert (Hr : p0_inputs q = r) by (subst q; reflexivity). pose proof (steps_length _ _ _ _ _ _ Hst) as Hl.
  pose proof (steps_utxos _ _ _ _ _ _ Hst) as Hu. rewrite <- Hr in Hst, Hl, Hu.
  assert (Hq' : q = set_p0_inputs (p0_inputs q) p) by now rewrite Hr. clear Hq Hr.
  assert (Hat : forall n i i', nth_error (p0_inputs p) (N.to_nat n) = Some i -> nth_error (p0_inputs q) (N.to_nat n) = Some i' ->
    (exists w ss, built mall (stage p q n) n w ss /\ accepted (stage p q n) n w ss /\ i' = finalized_input0 i w ss /\ forall e, ~ In (n, e) l)
    \/ (i' = i /\ exists e, fails0 mall (stage p q n) n e /\ In (n, e) l /\ forall e', In (n, e') l -> e' = e)).
  { intros n i i' Hi Hi'. pose proof (steps_at _ _ _ _ _ _ Hst (N.to_nat n) i i' Hi Hi') as A. cbv zeta in A. cbn [length app Nat.add] in A. rewrite N2Nat.id in A. exact A. }
  split; [assumption|]. split; [assumption|]. split.
  - intros n i i' Hi Hi'. destruct (Hat n i i' Hi Hi') as [(w & ss & Hb & Ha & Hi2 & _)|(Hi2 & e & Hf & _)].
    + left. exists w, ss. split; [assumption|]. split; [|now apply final_input0_iff]. revert Ha. apply same_verdict. apply same_funding_sym. now apply stage_funding.
    + right. split; [assumption|]. now exists e.
  - exists l. split; [assumption|]. destruct (steps_sorted _ _ _ _ _ _ Hst) as [Hso Hran]. split; [assumption|]. intros n e.
    assert (Hget : n < blen (p0_inputs p) -> exists i i', nth_error (p0_inputs p) (N.to_nat n) = Some i /\ nth_error (p0_inputs q) (N.to_nat n) = Some i').
    { intros Hn. destruct (nth_error (p0_inputs p) (N.to_nat n)) as [i|] eqn:E1; [|apply nth_error_None in E1; unfold blen in Hn; lia].
      destruct (nth_error (p0_inputs q) (N.to_nat n)) as [i'|] eqn:E2; [eauto|]. apply nth_error_None in E2. unfold blen in Hn. lia. }
    split.
    + intros Hin. assert (Hn : n < blen (p0_inputs p)).
      { rewrite Forall_forall in Hran. specialize (Hran n (in_map fst _ _ Hin)). unfold blen in *. cbn [length] in Hran. lia. }
      split; [assumption|]. destruct (Hget Hn) as (i & i' & Hi & Hi'). destruct (Hat n i i' Hi Hi') as [(w & ss & _ & _ & _ & Hno)|(_ & e' & Hf & _ & Hun)].
      * now apply Hno in Hin.
      * now rewrite (Hun e Hin).
    + intros [Hn Hf]. destruct (Hget Hn) as (i & i' & Hi & Hi'). destruct (Hat n i i' Hi Hi') as [(w & ss & Hb & Ha & _)|(_ & e' & Hf' & Hin & _)].
      * exfalso. apply (fails_not_done mall _ n e Hf). exists w, ss. auto.
      * now rewrite (fails_fun mall _ n e e' Hf Hf').
Qed.
Print Assumptions C52_v0_result.

(** Finalizing one input. *)
Theorem C52_v0_single : forall (X : Ext) (M : MsExt) (NM : MsNmExt M) p n q,
  one_map_per_input p ->
  (finalize_inp_mut p n = Ok q <->
   q = set_p0_inputs (p0_inputs q) p /\ length (p0_inputs q) = length (p0_inputs p)
   /\ (forall m, m <> n -> nth_error (p0_inputs q) (N.to_nat m) = nth_error (p0_inputs p) (N.to_nat m))
   /\ exists i i' w ss, nth_error (p0_inputs p) (N.to_nat n) = Some i /\ nth_error (p0_inputs q) (N.to_nat n) = Some i'
        /\ built false p n w ss /\ accepted p n w ss /\ final_input0 w ss i i').
Proof.
  intros X M NM p n q Hone. unfold finalize_inp_mut. destruct (blen (p0_inputs p) <=? n) eqn:Eb; cbn [fail_if bind].
  - split; [discriminate|]. intros (_ & _ & _ & i & _ & _ & _ & Hi & _). exfalso. assert (Q : nth_error (p0_inputs p) (N.to_nat n) <> None) by congruence.
    apply nth_error_Some in Q. unfold blen in Eb. lia.
  - destruct (spend_of p n Hone) as [[t i] Hs]; [lia|]. pose proof (proj1 (spend_at_iff _ _ _ _) Hs) as [_ Hi].
    assert (Hlt : (N.to_nat n < length (p0_inputs p))%nat) by (apply nth_error_Some; congruence).
    pose proof (finalize_input0_spec false p n _ Hone Hs) as H. split.
    + intros E. rewrite E in H. destruct H as (w & ss & Hb & Ha & ->). cbn [snd p0_inputs set_p0_inputs] in *.
      split; [reflexivity|]. split; [apply set_nth_length|]. split; [intros m Hm; apply set_nth_other; lia|].
      exists i, (finalized_input0 i w ss), w, ss. split; [assumption|]. split; [now apply set_nth_same|]. split; [assumption|]. split; [assumption|]. now apply final_input0_iff.
    + intros (Hq & Hl & Hoth & i2 & i' & w & ss & Hi2 & Hi' & Hb & Ha & Hf). rewrite Hi in Hi2. injection Hi2 as <-.
      destruct (finalize_input0 false p n) as [q'|e|].
      * destruct H as (w' & ss' & Hb' & _ & ->). unfold built in *. rewrite Hb in Hb'. injection Hb' as <- <-. f_equal. rewrite Hq. f_equal. cbn [snd].
        apply nth_ext_eq; [now rewrite set_nth_length|]. intros m a b Ham Hbm. destruct (Nat.eq_dec m (N.to_nat n)) as [->|Hne].
        -- rewrite set_nth_same in Ham by assumption. apply final_input0_iff in Hf. congruence.
        -- rewrite set_nth_other in Ham by congruence. specialize (Hoth (N.of_nat m) ltac:(lia)). rewrite Nat2N.id in Hoth. congruence.
      * exfalso. apply (fails_not_done _ _ _ _ H). exists w, ss. auto.
      * exfalso. destruct Ha as (_ & _ & us & _ & _ & Hu & _). now apply (oob_spent p us).
Qed.
Print Assumptions C52_v0_single.
Theorem C52_v0_single_error : forall (X : Ext) (M : MsExt) (NM : MsNmExt M) p n e,
  one_map_per_input p -> vouts_in_bounds p ->
  (finalize_inp_mut p n = Err e <->
   blen (p0_inputs p) <= n /\ e = M0InputIdxOutofBounds (blen (p0_inputs p)) n
   \/ n < blen (p0_inputs p) /\ fails0 false p n e).
Proof.
  intros X M NM p n e Hone Hin. unfold finalize_inp_mut. destruct (blen (p0_inputs p) <=? n) eqn:Eb; cbn [fail_if bind].
  - split; [intros E; injection E as <-; left; split; [lia|reflexivity]|]. intros [[_ ->]|[H _]]; [reflexivity|lia].
  - destruct (spend_of p n Hone) as [s Hs]; [lia|]. pose proof (finalize_input0_spec false p n s Hone Hs) as H. destruct (finalize_input0 false p n) as [q|e'|]; split.
    + discriminate.
    + intros [[H' _]|[_ Hf]]; [lia|]. destruct H as (w & ss & Hb & Ha & _). exfalso. apply (fails_not_done _ _ _ _ Hf). exists w, ss. auto.
    + intros E. injection E as <-. right. split; [lia|assumption].
    + intros [[H' _]|[_ Hf]]; [lia|]. now rewrite (fails_fun _ _ _ _ _ H Hf).
    + discriminate.
    + intros _. exfalso. apply Exists_exists in H as (s' & H1 & H2). unfold vouts_in_bounds in Hin. rewrite Forall_forall in Hin. exact (Hin s' H1 H2).
Qed.
Print Assumptions C52_v0_single_error.

Lemma in_bounds_check p : forallb (fun i => is_some (i0_witness_utxo i)) (p0_inputs p) = true -> vouts_in_bounds p.
Proof.
  intros H. apply Forall_forall. intros [t i] Hs (Hw & _). apply in_combine_r in Hs. rewrite forallb_forall in H. specialize (H i Hs).
  cbn [snd] in Hw. rewrite Hw in H. discriminate.
Qed.
Example C52_v0_example :
  one_map_per_input fy_done /\ vouts_in_bounds fy_done
  /\ then_holds (finalize_mut fy_done) (fun r =>
       snd r = []
       /\ map i0_final_script_sig (p0_inputs (fst r)) = [None; None]
       /\ map (fun i => option_map (map (@blen byte)) (i0_final_script_witness i)) (p0_inputs (fst r)) = [Some [34; 33]; Some [64]]
       /\ map i0_partial_sigs (p0_inputs (fst r)) = [[]; []])
  /\ then_holds (finalize_mut (ex0_of [fy_wpkh; fy_hash; ex0_tr])) (fun r =>
       snd r = [M0Input J0MissingPubkey 0; M0Input J0Miniscript 1; M0Input J0CouldNotSatisfyTr 2] /\ fst r = ex0_of [fy_wpkh; fy_hash; ex0_tr])
  /\ finalize_inp_mut fy_done 2 = Err (M0InputIdxOutofBounds 2 2).
Proof.
  split; [vm_compute; reflexivity|]. split.
  { apply in_bounds_check. vm_compute. reflexivity. }
  vm_compute. auto 12.
Qed.

(** ** C48: panics *)

Theorem C48_finalize_panic_iff : forall (X : Ext) (M : MsExt) (NM : MsNmExt M) mall p,
  one_map_per_input p -> (finalize_any mall p = Panic <-> Exists vout_out_of_bounds (spends p)).
Proof.
  intros X M NM mall p Hone. pose proof (finalize_any_steps mall p Hone) as H. split; [intros E; now rewrite E in H|]. intros Ho.
  destruct (finalize_any mall p) as [[q errs]|e|] eqn:E; [exfalso|contradiction|reflexivity].
  destruct (C52_v0_result X M NM mall p q errs Hone E) as (Hq & Hl & Hat & l & _ & _ & Hf).
  destruct H as (r & l' & Hst & Hqr & _). pose proof (steps_utxos _ _ _ _ _ _ Hst) as Hu. assert (Hr : p0_inputs q = r) by (subst q; reflexivity). rewrite <- Hr in Hu. clear Hst Hqr Hr r l'.
  apply Exists_exists in Ho as ([t i] & Hin & Ho). apply spend_at_in in Hin as (n & Hs). pose proof (proj1 (spend_at_iff _ _ _ _) Hs) as [_ Hi].
  assert (Hfun : same_funding p (stage p q n)) by now apply stage_funding. destruct (same_spend _ _ n _ Hfun Hs) as (j & Hj & Hsame). cbn [fst snd] in *.
  assert (Hoj : vout_out_of_bounds (t, j)) by now apply (same_utxos_oob t i j).
  destruct (nth_error (p0_inputs q) (N.to_nat n)) as [i'|] eqn:Ei'.
  - destruct (Hat n i i' Hi Ei') as [(w & ss & Hb & _)|(_ & e & Hfe)].
    + now apply (built_in_bounds mall (stage p q n) n w ss (t, j) Hj Hb).
    + now apply (fails_in_bounds mall (stage p q n) n e (t, j) Hj Hfe).
  - apply nth_error_None in Ei'. apply spend_at_lt in Hs as [Hs _]. unfold blen in Hs. lia.
Qed.
Print Assumptions C48_finalize_panic_iff.

(** Finalizing has no check for it. *)
Theorem C48_finalize_refuted : exists (X : Ext) (M : MsExt) (NM : MsNmExt M) bs p,
  psbt0_deserialize bs = Ok p /\ finalize_mut p = Panic /\ finalize_mall_mut p = Panic /\ finalize_inp_mut p 1 = Panic.
Proof.
  set (p := ex0_of [ex0_wpkh; set_i0_non_witness_utxo (Some prev0) input0_default]).
  exists toy, toy_ms0, toy_nm, (psbt0_serialize p), p. vm_compute. auto.
Qed.
Print Assumptions C48_finalize_refuted.

(** ** C27, C69: what is kept *)

Lemma finalize_input0_kept `{X : Ext} `{M : MsExt} `{NM : !MsNmExt M} mall p n q : finalize_input0 mall p n = Ok q -> q = set_p0_inputs (p0_inputs q) p.
Proof.
  unfold finalize_input0. intros H. apply bind_ok in H as ([w ss] & _ & H). cbn in H. apply bind_ok in H as (i & _ & H). inj H. reflexivity.
Qed.
Lemma finalize_all_kept `{X : Ext} `{M : MsExt} `{NM : !MsNmExt M} mall ns : forall p errs q es, finalize_all mall ns p errs = Ok (q, es) -> q = set_p0_inputs (p0_inputs q) p.
Proof.
  induction ns as [|n ns IH]; intros p errs q es H; cbn [finalize_all] in H.
  - injection H as <- _. symmetry. apply set_p0_inputs_same.
  - destruct (finalize_input0 mall p n) as [p'|e|] eqn:E; [|eauto|discriminate]. apply IH in H. apply finalize_input0_kept in E.
    rewrite E in H. now rewrite set_p0_inputs_twice in H.
Qed.

(** The transaction and everything else outside of the input maps is kept. *)
Theorem C27_v0 : forall (X : Ext) (M : MsExt) (NM : MsNmExt M) mall p q errs,
  finalize_any mall p = Ok (q, errs) ->
  p0_unsigned_tx q = p0_unsigned_tx p /\ p0_version q = p0_version p /\ p0_xpub q = p0_xpub p
  /\ p0_proprietary q = p0_proprietary p /\ p0_unknown q = p0_unknown p /\ p0_outputs q = p0_outputs p.
Proof.
  intros X M NM mall p q errs H. assert (Hq : q = set_p0_inputs (p0_inputs q) p) by (destruct mall; exact (finalize_all_kept _ _ _ _ _ _ H)).
  rewrite Hq. cbn. auto 8.
Qed.
Print Assumptions C27_v0.
Theorem C27_v0_single : forall (X : Ext) (M : MsExt) (NM : MsNmExt M) p q n,
  finalize_inp_mut p n = Ok q ->
  p0_unsigned_tx q = p0_unsigned_tx p /\ p0_version q = p0_version p /\ p0_xpub q = p0_xpub p
  /\ p0_proprietary q = p0_proprietary p /\ p0_unknown q = p0_unknown p /\ p0_outputs q = p0_outputs p.
Proof.
  intros X M NM p q n H. unfold finalize_inp_mut in H. apply bind_ok in H as (x & _ & H). apply finalize_input0_kept in H.
  rewrite H. cbn. auto 8.
Qed.
Print Assumptions C27_v0_single.
Example C27_v0_example : then_holds (finalize_mut fy_done) (fun r =>
  map i0_final_script_witness (p0_inputs (fst r)) <> map i0_final_script_witness (p0_inputs fy_done)
  /\ p0_unsigned_tx (fst r) = p0_unsigned_tx fy_done).
Proof. vm_compute. split; [discriminate|reflexivity]. Qed.

(** BIP-174: the utxos are kept.  Missing: unknown and proprietary fields of the inputs, which the
    finalizer must keep; they are kept only by the inputs that have none or that are not
    finalized. *)
Theorem C69_v0_partial : forall (X : Ext) (M : MsExt) (NM : MsNmExt M) mall p q errs n i i',
  one_map_per_input p -> finalize_any mall p = Ok (q, errs) ->
  nth_error (p0_inputs p) (N.to_nat n) = Some i -> nth_error (p0_inputs q) (N.to_nat n) = Some i' ->
  i0_witness_utxo i' = i0_witness_utxo i /\ i0_non_witness_utxo i' = i0_non_witness_utxo i
  /\ (i0_unknown i' = i0_unknown i <-> i0_unknown i = [] \/ ~ finalizes0 mall (stage p q n) n)
  /\ (i0_proprietary i' = i0_proprietary i <-> i0_proprietary i = [] \/ ~ finalizes0 mall (stage p q n) n).
Proof.
  intros X M NM mall p q errs n i i' Hone H Hi Hi'. destruct (C52_v0_result X M NM mall p q errs Hone H) as (Hq & Hl & Hat & _).
  destruct (Hat n i i' Hi Hi') as [(w & ss & Hb & Ha & F)|(-> & e & Hf)].
  - assert (Hfin : finalizes0 mall (stage p q n) n).
    { exists w, ss. split; [assumption|]. revert Ha. apply same_verdict. apply stage_funding; [assumption|].
      pose proof (finalize_any_steps mall p Hone) as Hs. rewrite H in Hs. destruct Hs as (r & l & Hst & Hqr & _). apply steps_utxos in Hst. rewrite Hqr. exact Hst. }
    destruct (fi0_other _ _ _ _ F) as [-> ->]. split; [apply (fi0_witness_utxo _ _ _ _ F)|]. split; [apply (fi0_non_witness_utxo _ _ _ _ F)|].
    split; split; intros E; try (left; congruence); (destruct E as [->|E]; [reflexivity|now apply E in Hfin]).
  - apply fails_not_done in Hf. split; [reflexivity|]. split; [reflexivity|]. split; split; auto.
Qed.
Print Assumptions C69_v0_partial.
Definition fy_unknown : psbt0 := fy_sign (ex0_of [set_i0_unknown [(Key x77 [x01], [x02])] fy_wpkh]).
Theorem C69_v0_refuted : exists (X : Ext) (M : MsExt) (NM : MsNmExt M) p q i i',
  wf_psbt0 p /\ finalize_mut p = Ok (q, []) /\ p0_inputs p = [i] /\ p0_inputs q = [i'] /\ i0_unknown i <> [] /\ i0_unknown i' = [].
Proof.
  exists toy, toy_ms0, toy_nm, fy_unknown, (fy_final fy_unknown), (hd input0_default (p0_inputs fy_unknown)), (hd input0_default (p0_inputs (fy_final fy_unknown))).
  split; [apply ex0_wf; vm_compute; reflexivity|]. vm_compute. repeat split. discriminate.
Qed.
Print Assumptions C69_v0_refuted.

(** ** C70: finalized PSBTs can be stored *)

Lemma finalized_wf `{X : Ext} w ss i i' : wf_input0 i -> final_input0 w ss i i' -> wf_value ss -> wf_witness_v w -> wf_input0 i'.
Proof.
  intros W F Hss Hw.
  destruct (fi0_ecdsa _ _ _ _ F) as (? & ? & ? & ? & ?), (fi0_preimages _ _ _ _ F) as (? & ? & ? & ?),
    (fi0_tap _ _ _ _ F) as (? & ? & ? & ? & ? & ?), (fi0_other _ _ _ _ F) as (? & ?).
  assert (Hm : forall K V (sk : K -> list N) (a : K -> Prop) (b : V -> Prop) m, m = [] -> map_of sk a b m).
  { intros K V sk a b m ->. split; constructor. }
  assert (Hpi : forall n h m, m = [] -> preimages n h m). { intros n0 h m ->. split; [now apply Hm|constructor]. }
  assert (Ho' : forall A (a : A -> Prop) o, o = None -> opt_of a o) by (intros A a o ->; exact I).
  constructor; auto.
  - rewrite (fi0_non_witness_utxo _ _ _ _ F). now apply wi0_non_witness_utxo.
  - rewrite (fi0_witness_utxo _ _ _ _ F). now apply wi0_witness_utxo.
  - rewrite (fi0_script_sig _ _ _ _ F). destruct ss; [exact I|exact Hss].
  - rewrite (fi0_witness _ _ _ _ F). destruct w; [exact I|exact Hw].
Qed.
Theorem C70_v0_wf : forall (X : Ext) (M : MsExt) (NM : MsNmExt M) mall p q errs,
  wf_psbt0 p -> finalize_any mall p = Ok (q, errs) ->
  (forall n w ss, built mall (stage p q n) n w ss -> wf_value ss /\ wf_witness_v w) -> wf_psbt0 q.
Proof.
  intros X M NM mall p q errs W H Hsz. pose proof (wp0_input_count _ W) as Hone.
  destruct (C52_v0_result X M NM mall p q errs Hone H) as (Hq & Hl & Hat & _).
  assert (Hi : Forall wf_input0 (p0_inputs q)).
  { apply Forall_forall. intros i' Hi'. apply In_nth_error in Hi' as [k Hk].
    destruct (nth_error (p0_inputs p) k) as [i|] eqn:Ei; [|apply nth_error_None in Ei; assert (Q : nth_error (p0_inputs q) k <> None) by congruence; apply nth_error_Some in Q; lia].
    assert (Wi : wf_input0 i) by (pose proof (wp0_inputs _ W) as Wl; rewrite Forall_forall in Wl; apply Wl; eapply nth_error_In; eauto).
    specialize (Hat (N.of_nat k) i i'). rewrite Nat2N.id in Hat. destruct (Hat Ei Hk) as [(w & ss & Hb & _ & F)|(-> & _)]; [|assumption].
    destruct (Hsz _ _ _ Hb) as [H1 H2]. now apply (finalized_wf w ss i). }
  rewrite Hq. destruct W. constructor; cbn; auto. rewrite Hl. assumption.
Qed.
Print Assumptions C70_v0_wf.
Theorem C70_v0_roundtrip : forall (X : Ext) (L : ExtLaws X) (M : MsExt) (NM : MsNmExt M) mall p q errs,
  wf_psbt0 p -> no_tap_ties0 p -> finalize_any mall p = Ok (q, errs) ->
  (forall n w ss, built mall (stage p q n) n w ss -> wf_value ss /\ wf_witness_v w) ->
  psbt0_deserialize (psbt0_serialize q) = Ok q.
Proof.
  intros X L M NM mall p q errs W Ht H Hsz. pose proof (C70_v0_wf X M NM mall p q errs W H Hsz) as Wq.
  apply psbt0_roundtrip_exact; [exact Wq|]. destruct (C27_v0 X M NM mall p q errs H) as (_ & _ & _ & _ & _ & Ho). unfold no_tap_ties0 in *. now rewrite Ho.
Qed.
Print Assumptions C70_v0_roundtrip.
Example C70_v0_example : psbt0_deserialize (psbt0_serialize fy_done) = Ok fy_done
  /\ finalize_mut fy_done = Ok (fy_final fy_done, []) /\ psbt0_deserialize (psbt0_serialize (fy_final fy_done)) = Ok (fy_final fy_done).
Proof. split; [vm_compute; reflexivity|]. split; vm_compute; reflexivity. Qed.

(** ** C51, C66: time locks *)

(** BIP-65: an absolute lock is accepted exactly when the transaction satisfies it and the input is
    not final. *)
Theorem C51_v0 : forall (X : Ext) t ti i n,
  sat_after (psbt_input_satisfier t ti i) n = true <-> ti_sequence ti <> 2 ^ 32 - 1 /\ bip65 n (tx_lock_time t).
Proof.
  intros X t ti i n. cbn [sat_after psbt_input_satisfier]. unfold check_after0, SEQ_MAX, LOCK_TIME_THRESHOLD, bip65. change (2 ^ 32 - 1) with 4294967295.
  destruct (N.eqb_spec (ti_sequence ti) 4294967295) as [E|E]; [split; [discriminate|tauto]|]. rewrite andb_true_iff, Bool.eqb_true_iff, N.leb_le.
  destruct (n <? 500000000) eqn:E1, (tx_lock_time t <? 500000000) eqn:E2; split; intros H; repeat split; try tauto; try lia; destruct H; try discriminate; lia.
Qed.
Print Assumptions C51_v0.
Example C51_v0_example :
  let t l := Tx 2 l [] [] in
  let s q l := sat_after (psbt_input_satisfier (t l) (TxIn txid_a 0 [] q []) input0_default) in
  s 0 100 100 = true /\ s 0 100 101 = false /\ s 4294967295 100 100 = false /\ s 0 600000000 100 = false /\ s 0 600000000 600000000 = true.
Proof. vm_compute. auto. Qed.

(** BIP-68, BIP-112: a relative lock is accepted exactly when the version of the transaction and the
    sequence of the input satisfy it, except that versions from 2^31 count as less than 2. *)
Theorem C66_v0 : forall (X : Ext) t ti i r, wf_u32 (ti_sequence ti) ->
  (sat_older (psbt_input_satisfier t ti i) r = true <-> 2 <= tx_version t < 2 ^ 31 /\ bip112 r (ti_sequence ti)).
Proof.
  intros X t ti i r Hw. cbn [sat_older psbt_input_satisfier]. unfold check_older0.
  destruct (N.ltb_spec (tx_version t) 2); cbn [orb]; [split; [discriminate|lia]|]. destruct (N.leb_spec (2 ^ 31) (tx_version t)); [split; [discriminate|lia]|].
  destruct (rel_from_sequence (ti_sequence ti)) as [l|] eqn:E.
  - rewrite (rel_spec _ Hw r l E). split; [intros Hb; split; [lia|assumption]|intros [_ Hb]; assumption].
  - pose proof (rel_none _ Hw E). split; [discriminate|]. intros (_ & Hb & _). lia.
Qed.
Print Assumptions C66_v0.
Example C66_v0_example :
  let s v q := sat_older (psbt_input_satisfier (Tx v 0 [] []) (TxIn txid_a 0 [] q []) input0_default) in
  s 2 (2 ^ 22 + 7) (RTime 7) = true /\ s 2 (2 ^ 22 + 7) (RTime 8) = false /\ s 2 (2 ^ 22 + 7) (RBlocks 1) = false
  /\ s 1 7 (RBlocks 7) = false /\ s 2 7 (RBlocks 7) = true /\ s (2 ^ 31) 7 (RBlocks 7) = false /\ s 2 (2 ^ 31) (RBlocks 0) = false.
Proof. vm_compute. auto 8. Qed.

(** ** C88: malleable satisfactions *)

(** [finalize_inp_mall] does not find what [finalize_mall] finds. *)
Theorem C88_inp_mall_refuted : exists (X : Ext) (M : MsExt) (NM : MsNmExt M) p q e,
  MsNmLaws M NM /\ wf_psbt0 p /\ finalize_mall_mut p = Ok (q, []) /\ finalize_inp_mall_mut p 0 = Err e.
Proof.
  exists toy, toy_ms0, toy_nm, (ex0_of [fy_hash]), (match finalize_mall_mut (ex0_of [fy_hash]) with Ok (q, _) => q | _ => ex0_of [] end), (M0Input J0Miniscript 0).
  split; [exact toy_nm_laws|]. split; [apply ex0_wf; vm_compute; reflexivity|]. split; vm_compute; reflexivity.
Qed.
Print Assumptions C88_inp_mall_refuted.
Lemma build_mall `{X : Ext} `{M : MsExt} `{NM : !MsNmExt M} `{ML : !MsNmLaws M NM} p n w ss :
  built false p n w ss -> exists w' ss', built true p n w' ss'.
Proof.
  unfold built, build_final. intros H. apply bind_ok in H as (spk & Hspk & H). rewrite Hspk. cbn [bind].
  apply bind_ok in H as (i & Hi & H). rewrite Hi. cbn [bind]. apply bind_ok in H as (t & Ht & H). rewrite Ht. cbn [bind]. cbv zeta in *.
  set (s := psbt_input_satisfier (p0_unsigned_tx p) t i) in *. destruct (is_p2tr spk) eqn:Etr.
  - apply bind_ok in H as (w' & H & _). unfold construct_tap_witness0 in *. rewrite Etr in *. cbn [panic_unless bind] in *.
    destruct (sat_tap_key s) as [sg|]; cbn [bind]; [eauto|].
    pose proof (tap_loop0_spec false (tap_key_map0 (p0_inputs p)) s (i0_tap_scripts i) None) as H1. destruct (tap_loop0 false _ _ _ _) as [w1|]; [|discriminate].
    destruct H1 as ([H1|(leaf & Hin & Hw)] & _); [discriminate|].
    pose proof (tap_loop0_spec true (tap_key_map0 (p0_inputs p)) s (i0_tap_scripts i) None) as H2. destruct (tap_loop0 true _ _ _ _) as [w2|]; cbn [ok_or bind]; [eauto|].
    exfalso. destruct H2 as [_ H2]. specialize (H2 leaf Hin). destruct leaf as [cb [script ver]]. unfold leaf_witness0 in *. destruct (negb (ver =? 192)); [discriminate|].
    destruct (ms_parse CTap script) as [m|]; [|discriminate]. cbv zeta in *. cbn [satisfy0] in *. destruct (ms_satisfy_nm CTap _ s) as [x|] eqn:Ex; [|discriminate].
    apply ms_nm_found in Ex as [y Ey]. rewrite Ey in H2. discriminate.
  - apply bind_ok in H as (d & Hd & H). rewrite Hd. cbn [bind].
    destruct d as [k|k|k|k|m|m|m|m]; cbn [desc_satisfaction0 satisfy0] in *; try (rewrite H; eauto).
    all: match type of H with context [ms_satisfy_nm ?c ?m ?s] => destruct (ms_satisfy_nm c m s) as [x|] eqn:Ex; [|discriminate] end;
      apply ms_nm_found in Ex as [y Ey]; rewrite Ey; cbn; eauto.
Qed.
(** What it finds is no malleable satisfaction, and where it finds one so does [finalize_mall].
    Missing: that malleable satisfactions are found. *)
Theorem C88_inp_mall_partial : forall (X : Ext) (M : MsExt) (NM : MsNmExt M) (ML : MsNmLaws M NM) p n q,
  one_map_per_input p -> finalize_inp_mall_mut p n = Ok q ->
  finalize_inp_mut p n = Ok q /\ exists w ss, built true p n w ss.
Proof.
  intros X M NM ML p n q Hone H. assert (E : finalize_inp_mut p n = Ok q) by exact H. split; [assumption|].
  apply (C52_v0_single X M NM p n q Hone) in E as (_ & _ & _ & i & i' & w & ss & _ & _ & Hb & _). now apply build_mall in Hb.
Qed.
Print Assumptions C88_inp_mall_partial.
Example C88_example : one_map_per_input fy_done /\ then_holds (finalize_inp_mall_mut fy_done 1) (fun q => map i0_final_script_witness (p0_inputs q) <> [None; None]).
Proof. split; [reflexivity|]. vm_compute. discriminate. Qed.

(** ** C89: other inputs *)

Definition fy_first : psbt0 := fy_sign (ex0_of [fy_wpkh; fy_wsh]).
(** Input 1 can be finalized; but not by [finalize], which by then has removed the keys of input 0
    from the PSBT. *)
Theorem C89_order_refuted : exists (X : Ext) (M : MsExt) (NM : MsNmExt M) p q q' e,
  MsNmLaws M NM /\ wf_psbt0 p /\ finalize_inp_mut p 1 = Ok q /\ finalize_mut p = Ok (q', [e]) /\ nth_error (p0_inputs q') 1 = nth_error (p0_inputs p) 1.
Proof.
  exists toy, toy_ms0, toy_nm, fy_first, (match finalize_inp_mut fy_first 1 with Ok q => q | _ => fy_first end), (fy_final fy_first), (M0Input J0Miniscript 1).
  split; [exact toy_nm_laws|]. split; [apply ex0_wf; vm_compute; reflexivity|]. vm_compute. auto.
Qed.
Print Assumptions C89_order_refuted.
(** An input can be finalized, until there is one of whose output nothing is known. *)
Theorem C89_utxo_refuted : exists (X : Ext) (M : MsExt) (NM : MsNmExt M) p p' q e,
  MsNmLaws M NM /\ wf_psbt0 p /\ wf_psbt0 p' /\ nth_error (p0_inputs p') 0 = nth_error (p0_inputs p) 0 /\ p0_unsigned_tx p' = p0_unsigned_tx p
  /\ finalize_inp_mut p 0 = Ok q /\ finalize_inp_mut p' 0 = Err e.
Proof.
  exists toy, toy_ms0, toy_nm, fy_done, (set_p0_inputs [hd input0_default (p0_inputs fy_done); input0_default] fy_done),
    (match finalize_inp_mut fy_done 0 with Ok q => q | _ => fy_done end), (M0Input J0MissingUtxo 1).
  split; [exact toy_nm_laws|]. split; [apply ex0_wf; vm_compute; reflexivity|]. split; [apply ex0_wf; vm_compute; reflexivity|].
  split; [vm_compute; reflexivity|]. split; [vm_compute; reflexivity|]. split; vm_compute; reflexivity.
Qed.
Print Assumptions C89_utxo_refuted.

(** The outcome for the input. *)
Definition same_outcome (n : N) (r r' : res msferr0 psbt0) : Prop :=
  match r, r' with
  | Ok q, Ok q' => nth_error (p0_inputs q) (N.to_nat n) = nth_error (p0_inputs q') (N.to_nat n)
  | Err e, Err e' => e = e'
  | Panic, Panic => True
  | _, _ => False
  end.
Lemma same_get_utxo p p' k : p0_unsigned_tx p = p0_unsigned_tx p' -> Forall2 same_utxos (p0_inputs p) (p0_inputs p') -> get_utxo p k = get_utxo p' k.
Proof.
  intros Ht Hf. unfold get_utxo. rewrite !nth_N_nth, <- Ht. destruct (nth_error (p0_inputs p) (N.to_nat k)) as [i|] eqn:E.
  - destruct (F2_nth_l _ _ _ Hf _ _ E) as (j & -> & H1 & H2). cbn [expect bind]. rewrite H1, H2. reflexivity.
  - apply nth_error_None in E. assert (E' : nth_error (p0_inputs p') (N.to_nat k) = None) by (apply nth_error_None; now rewrite <- (F2_length _ _ _ Hf)). now rewrite E'.
Qed.
Lemma same_prevouts p p' : p0_unsigned_tx p = p0_unsigned_tx p' -> Forall2 same_utxos (p0_inputs p) (p0_inputs p') -> psbt0_prevouts p = psbt0_prevouts p'.
Proof.
  intros Ht Hf. unfold psbt0_prevouts. assert (E : input_indices0 p = input_indices0 p') by (unfold input_indices0; now rewrite (F2_length _ _ _ Hf)).
  rewrite E. generalize (input_indices0 p'). induction l as [|k l IH]; cbn [prevouts_loop]; [reflexivity|]. now rewrite (same_get_utxo p p' k Ht Hf), IH.
Qed.
Lemma same_outcome_of `{X : Ext} `{M : MsExt} `{NM : !MsNmExt M} p p' n :
  p0_unsigned_tx p = p0_unsigned_tx p' -> Forall2 same_utxos (p0_inputs p) (p0_inputs p') ->
  nth_error (p0_inputs p) (N.to_nat n) = nth_error (p0_inputs p') (N.to_nat n) -> build_final false p n = build_final false p' n ->
  same_outcome n (finalize_inp_mut p n) (finalize_inp_mut p' n).
Proof.
  intros Ht Hf Hn Hb. unfold finalize_inp_mut, finalize_input0, finalize_input_helper. assert (Hlen : blen (p0_inputs p) = blen (p0_inputs p')) by (unfold blen; now rewrite (F2_length _ _ _ Hf)).
  rewrite <- Hlen. destruct (blen (p0_inputs p) <=? n); cbn [fail_if bind]; [exact eq_refl|]. rewrite <- Hb, <- (same_prevouts p p' Ht Hf).
  destruct (build_final false p n) as [[w ss]|e|]; cbn [map_err bind same_outcome]; auto.
  destruct (psbt0_prevouts p) as [us|e|]; cbn [bind same_outcome]; auto.
  unfold interpreter_inp_check, get_scriptpubkey. rewrite <- (same_get_utxo p p' n Ht Hf), <- Ht. rewrite !nth_N_nth, <- Hn.
  destruct (get_utxo p n) as [u|e|]; cbn [map_err bind same_outcome]; auto.
  destruct (nth_error (tx_input (p0_unsigned_tx p)) (N.to_nat n)); cbn [expect bind same_outcome]; auto. cbv zeta.
  destruct (ms_interpret _ _ _ _ _ _ _ _); cbn [bind same_outcome]; auto.
  destruct (nth_error (p0_inputs p) (N.to_nat n)) as [i|] eqn:Ei; cbn [expect bind same_outcome]; auto.
  cbn [p0_inputs set_p0_inputs]. assert ((N.to_nat n < length (p0_inputs p))%nat) by (apply nth_error_Some; congruence).
  assert ((N.to_nat n < length (p0_inputs p'))%nat) by (apply nth_error_Some; congruence). now rewrite !set_nth_same.
Qed.

(** Apart from the utxos and the key origins the other inputs do not matter.  Missing: that these
    do not matter either. *)
Theorem C89_origins_partial : forall (X : Ext) (M : MsExt) (NM : MsNmExt M) p p' n,
  p0_unsigned_tx p = p0_unsigned_tx p' -> nth_error (p0_inputs p) (N.to_nat n) = nth_error (p0_inputs p') (N.to_nat n) ->
  map i0_witness_utxo (p0_inputs p) = map i0_witness_utxo (p0_inputs p') ->
  map i0_non_witness_utxo (p0_inputs p) = map i0_non_witness_utxo (p0_inputs p') ->
  map i0_bip32_derivation (p0_inputs p) = map i0_bip32_derivation (p0_inputs p') ->
  map i0_tap_key_origins (p0_inputs p) = map i0_tap_key_origins (p0_inputs p') ->
  same_outcome n (finalize_inp_mut p n) (finalize_inp_mut p' n).
Proof.
  intros X M NM p p' n Ht Hn Hu1 Hu2 Hk1 Hk2.
  assert (Hf : Forall2 same_utxos (p0_inputs p) (p0_inputs p')).
  { clear -Hu1 Hu2. revert Hu1 Hu2. generalize (p0_inputs p) as l, (p0_inputs p') as l'. induction l as [|i l IH]; intros [|j l'] H1 H2; cbn [map] in *; try discriminate; constructor.
    - split; congruence.
    - apply IH; congruence. }
  apply same_outcome_of; auto. unfold build_final, get_descriptor0, get_scriptpubkey. rewrite (same_get_utxo p p' n Ht Hf), !nth_N_nth, <- Hn, <- Ht.
  assert (K1 : known_keys0 (p0_inputs p) = known_keys0 (p0_inputs p')).
  { unfold known_keys0. generalize (@nil (bytes * pubkey)). revert Hk1. generalize (p0_inputs p) as l, (p0_inputs p') as l'. induction l as [|i l IH]; intros [|j l'] H acc; cbn [map fold_left] in *; try discriminate; auto.
    injection H as H1 H2. rewrite H1. now apply IH. }
  assert (K2 : tap_key_map0 (p0_inputs p) = tap_key_map0 (p0_inputs p')).
  { unfold tap_key_map0. generalize (@nil (bytes * bytes)). revert Hk2. generalize (p0_inputs p) as l, (p0_inputs p') as l'. induction l as [|i l IH]; intros [|j l'] H acc; cbn [map fold_left] in *; try discriminate; auto.
    injection H as H1 H2. rewrite H1. now apply IH. }
  cbv zeta. unfold construct_tap_witness0. rewrite K1, K2. reflexivity.
Qed.
Print Assumptions C89_origins_partial.

(** For outputs of a single key and for taproot inputs with a key signature only the utxos matter. *)
Theorem C89_single_key_partial : forall (X : Ext) (L : ExtLaws X) (M : MsExt) (NM : MsNmExt M) p p' n s u,
  p0_unsigned_tx p = p0_unsigned_tx p' -> spend_at p n s -> spend_at p' n s -> funds0 s u ->
  (single_key (i0_redeem_script (snd s)) (to_script u) \/ (exists k, p2tr_key (to_script u) k) /\ i0_tap_key_sig (snd s) <> None) ->
  map i0_witness_utxo (p0_inputs p) = map i0_witness_utxo (p0_inputs p') ->
  map i0_non_witness_utxo (p0_inputs p) = map i0_non_witness_utxo (p0_inputs p') ->
  same_outcome n (finalize_inp_mut p n) (finalize_inp_mut p' n).
Proof.
  intros X L M NM p p' n s u Ht Hs Hs' Hu Hk Hu1 Hu2.
  assert (Hf : Forall2 same_utxos (p0_inputs p) (p0_inputs p')).
  { clear -Hu1 Hu2. revert Hu1 Hu2. generalize (p0_inputs p) as l, (p0_inputs p') as l'. induction l as [|i l IH]; intros [|j l'] H1 H2; cbn [map] in *; try discriminate; constructor.
    - split; congruence.
    - apply IH; congruence. }
  assert (Hn : nth_error (p0_inputs p) (N.to_nat n) = nth_error (p0_inputs p') (N.to_nat n)).
  { destruct s as [t i]. apply spend_at_iff in Hs as [_ Hs]. apply spend_at_iff in Hs' as [_ Hs']. congruence. }
  apply same_outcome_of; auto. rewrite (build_known false p n s u Hs Hu), (build_known false p' n s u Hs' Hu). unfold final0. rewrite <- Ht. cbv zeta.
  destruct Hk as [Hk|[Hk Hsig]].
  - destruct (single_descriptor p n s u Hs Hu Hk) as [Htr Hd]. rewrite Htr, (Hd p' Hs'). reflexivity.
  - apply is_p2tr_iff in Hk. unfold construct_tap_witness0. rewrite Hk. cbn [panic_unless bind sat_tap_key psbt_input_satisfier].
    destruct (i0_tap_key_sig (snd s)); [reflexivity|congruence].
Qed.
Print Assumptions C89_single_key_partial.
Example C89_example :
  let p := fy_first in
  let p' := set_p0_inputs (map (set_i0_partial_sigs []) (firstn 1 (p0_inputs p)) ++ skipn 1 (p0_inputs p)) p in
  map (fun i => length (i0_partial_sigs i)) (p0_inputs p) = [2; 1]%nat /\ map (fun i => length (i0_partial_sigs i)) (p0_inputs p') = [0; 1]%nat
  /\ map i0_bip32_derivation (p0_inputs p) = map i0_bip32_derivation (p0_inputs p')
  /\ then_holds (finalize_inp_mut p 1) (fun q => then_holds (finalize_inp_mut p' 1) (fun q' => nth_error (p0_inputs q) 1 = nth_error (p0_inputs q') 1)).
Proof. vm_compute. auto. Qed.

(** ** C90: the input that failed *)

Theorem C90_refuted : exists (X : Ext) (M : MsExt) (NM : MsNmExt M) p e,
  wf_psbt0 p /\ finalize_inp_mut p 0 = Err (M0Input e 1).
Proof.
  exists toy, toy_ms0, toy_nm, (set_p0_inputs [hd input0_default (p0_inputs fy_done); input0_default] fy_done), J0MissingUtxo.
  split; [apply ex0_wf; vm_compute; reflexivity|]. vm_compute. reflexivity.
Qed.
Print Assumptions C90_refuted.
(** An error names the input, or else the first one of whose output nothing is known.  Missing:
    that it names the input. *)
Theorem C90_partial : forall (X : Ext) (M : MsExt) (NM : MsNmExt M) p n e,
  one_map_per_input p -> n < blen (p0_inputs p) -> finalize_inp_mut p n = Err e ->
  exists e' k, e = M0Input e' k /\ (k = n \/ e' = J0MissingUtxo /\ first_unknown p k).
Proof.
  intros X M NM p n e Hone Hn H. unfold finalize_inp_mut in H. replace (blen (p0_inputs p) <=? n) with false in H by lia. cbn [fail_if bind] in H.
  destruct (spend_of p n Hone Hn) as [s Hs]. pose proof (finalize_input0_spec false p n s Hone Hs) as Hsp. rewrite H in Hsp.
  destruct Hsp as [e' H'|w ss k Hb Hu|w ss v Hb Hv Hne]; eauto 8.
Qed.
Print Assumptions C90_partial.
(** The errors of [finalize] and [finalize_mall] come in the order of the inputs, one for each input
    that fails; each names its input or the first one of whose output nothing is known. *)
Theorem C90_all_partial : forall (X : Ext) (M : MsExt) (NM : MsNmExt M) mall p q errs,
  one_map_per_input p -> finalize_any mall p = Ok (q, errs) ->
  exists l, errs = map snd l /\ StronglySorted N.lt (map fst l)
    /\ (forall n, In n (map fst l) <-> n < blen (p0_inputs p) /\ ~ finalizes0 mall (stage p q n) n)
    /\ forall n e, In (n, e) l -> exists e' k, e = M0Input e' k /\ (k = n \/ e' = J0MissingUtxo /\ first_unknown p k).
Proof.
  intros X M NM mall p q errs Hone H. destruct (C52_v0_result X M NM mall p q errs Hone H) as (Hq & Hl & Hat & l & He & Hs & Hin).
  assert (Hu : Forall2 same_utxos (p0_inputs p) (p0_inputs q)).
  { pose proof (finalize_any_steps mall p Hone) as Hst. rewrite H in Hst. destruct Hst as (r & l' & Hst & Hqr & _). apply steps_utxos in Hst. rewrite Hqr. exact Hst. }
  exists l. split; [assumption|]. split; [assumption|]. split.
  - intros n. split.
    + intros Hn. apply in_map_iff in Hn as ([n' e] & <- & Hn). apply Hin in Hn as [Hn Hf]. split; [assumption|]. now apply fails_not_done in Hf.
    + intros [Hn Hno]. destruct (nth_error (p0_inputs p) (N.to_nat n)) as [i|] eqn:Ei; [|apply nth_error_None in Ei; unfold blen in Hn; lia].
      destruct (nth_error (p0_inputs q) (N.to_nat n)) as [i'|] eqn:Ei'; [|apply nth_error_None in Ei'; unfold blen in Hn; lia].
      destruct (Hat n i i' Ei Ei') as [(w & ss & Hb & Ha & _)|(_ & e & Hf)].
      * exfalso. apply Hno. exists w, ss. split; [assumption|]. revert Ha. apply same_verdict. now apply stage_funding.
      * apply in_map_iff. exists (n, e). split; [reflexivity|]. now apply Hin.
  - intros n e Hne. apply Hin in Hne as [Hn Hf]. destruct Hf as [e' H'|w ss k Hb Hk|w ss v Hb Hv Hne]; [eauto 8| |eauto 8].
    exists J0MissingUtxo, k. split; [reflexivity|]. right. split; [reflexivity|].
    assert (Hback : same_funding (stage p q n) p) by (apply same_funding_sym; now apply stage_funding).
    destruct Hk as [(s & Hs1 & Hs2) Hk]. split.
    + destruct (same_spend _ _ k s Hback Hs1) as (j & Hj & H1 & H2). exists (fst s, j). split; [assumption|]. unfold no_utxo in *. cbn [snd]. now rewrite <- H1, <- H2.
    + intros j s' Hlt Hs'. destruct (same_spend _ _ j s' (same_funding_sym _ _ Hback) Hs') as (x & Hx & Hsame). destruct (Hk j _ Hlt Hx) as [u Hu'].
      exists u. destruct s' as [t i]. cbn [fst snd] in *. now apply (same_utxos_funds t i x).
Qed.
Print Assumptions C90_all_partial.
Example C90_example : then_holds (finalize_mut (ex0_of [input0_default; fy_hash; fy_hash])) (fun r =>
  snd r = [M0Input J0MissingUtxo 0; M0Input J0Miniscript 1; M0Input J0Miniscript 2])
  /\ then_holds (finalize_mall_mut (ex0_of [input0_default; fy_hash; fy_hash])) (fun r =>
  snd r = [M0Input J0MissingUtxo 0; M0Input J0MissingUtxo 0; M0Input J0MissingUtxo 0]).
Proof. vm_compute. auto. Qed.
