(** C145: version 0 and version 2 agree. *)
From Verif Require Import Base OMap Consensus ConsensusFacts Ext ExtInstance Raw RawFacts TapTree SpecCodec Serialize SerializeFacts MapCodec
  V2Global V2Input V2Output V2Psbt V2Roles SpecRoles V2RolesFacts PropertiesV2Roles Script SighashType V2Sign SignInstance SpecSign V2SignFacts
  PropertiesV2Sign V0Error V0Input V0Output V0Psbt SpecPsbt0 V0Sign SchnorrInstance SpecSign0 SpecTwoVersions SampleV2.
Local Open Scope N_scope.

(** Used by the examples only; the theorems bind their own. *)
#[local] Existing Instance toy | 100.
#[local] Instance ex_cfg : Cfg | 100 := cfg_of false false.
#[local] Existing Instance toy_sign | 100.
#[local] Existing Instance toy_schnorr | 100.

(** All kinds that are signed with ECDSA, with the sequence given. *)
Definition tv_all : psbt :=
  ex_of 3 (map (set_in_sequence (Some 5)) [ex_wpkh; ex_wsh; ex_sh; ex_bare; ex_shwsh]).

(** ** The transaction *)

(** The unsigned transaction of a PSBT is the transaction of its version 0 form. *)
Theorem C145_transaction : forall p lock, bip370_lock_time p (Some lock) -> sequences_given p ->
  unsigned_tx p = Ok (p0_unsigned_tx (v0_form lock p)).
Proof.
  intros p lock H Hs. apply (C18_lock_time p) in H. unfold unsigned_tx. rewrite H. cbn [bind v0_form p0_unsigned_tx].
  do 2 f_equal. unfold sequences_given in Hs. rewrite Forall_forall in Hs. apply map_ext_in. intros i Hi. apply Hs in Hi.
  unfold input_unsigned_tx_in, v0_txin. destruct (in_sequence i); [reflexivity|contradiction].
Qed.
Print Assumptions C145_transaction.

(** Without a sequence it is not: the code takes 0 for an absent sequence, and not the final one. *)
Theorem C145_transaction_refuted : exists p lock, bip370_lock_time p (Some lock) /\ inputs_counted p
  /\ unsigned_tx p <> Ok (p0_unsigned_tx (v0_form lock p)).
Proof.
  exists (ex_of 3 [ex_wpkh]), 0. split; [apply (C18_lock_time (ex_of 3 [ex_wpkh])); vm_compute; reflexivity|].
  split; [reflexivity|]. vm_compute. discriminate.
Qed.
Print Assumptions C145_transaction_refuted.

Example C145_transaction_example : bip370_lock_time tv_all (Some 0) /\ sequences_given tv_all /\ inputs_counted tv_all.
Proof.
  split; [apply (C18_lock_time tv_all); vm_compute; reflexivity|]. split; [|reflexivity].
  repeat constructor; discriminate.
Qed.

(** ** Fee *)

Lemma funding_form i :
  match input_funding_utxo i, input0_funding_utxo (v0_txin i) (v0_input i) with
  | Ok u, Ok v => u = v
  | Err e, Err e0 => same_fee_problem (FeeFundingUtxo e) e0
  | _, _ => False
  end.
Proof.
  unfold input_funding_utxo, input0_funding_utxo. cbn [v0_input i0_witness_utxo i0_non_witness_utxo v0_txin ti_vout].
  destruct (in_witness_utxo i); [reflexivity|]. destruct (in_non_witness_utxo i); [|constructor]. rewrite nth_N_nth.
  destruct (nth_error _ _); [reflexivity|constructor].
Qed.
Lemma sum_form l ins0 :
  Forall2 (fun i s => snd s = v0_input i /\ fst s = v0_txin i) l ins0 -> forall acc,
  match checked_sum FeeInputOverflow acc (map (fun r => map_err FeeFundingUtxo (u <- r ;; Ok (to_value u))) (map input_funding_utxo l)),
        checked_sum E0FeeOverflow acc (map (fun r => u <- r ;; Ok (to_value u)) (map (fun ti => input0_funding_utxo (fst ti) (snd ti)) ins0)) with
  | Ok a, Ok b => a = b
  | Err e, Err e0 => same_fee_problem e e0
  | _, _ => False
  end.
Proof.
  induction 1 as [|i [t i0] l ins0 [H1 H2] _ IH]; intros acc; cbn [map checked_sum]; [reflexivity|].
  cbn [fst snd] in H1, H2. subst i0 t. cbn [fst snd]. pose proof (funding_form i) as H.
  destruct (input_funding_utxo i) as [u|e|], (input0_funding_utxo (v0_txin i) (v0_input i)) as [v|e0|]; try contradiction; [|exact H].
  subst v. cbn [bind map_err]. destruct (acc + to_value u <? U64); [apply IH|constructor].
Qed.
Lemma pay_form l : forall acc,
  match checked_sum FeeOutputOverflow acc (map (fun o => Ok (out_amount o)) l),
        checked_sum E0FeeOverflow acc (map (fun o => Ok (to_value o)) (map (fun o => TxOut (out_amount o) (out_script_pubkey o)) l)) with
  | Ok a, Ok b => a = b
  | Err e, Err e0 => same_fee_problem e e0
  | _, _ => False
  end.
Proof.
  induction l as [|o l IH]; intros acc; cbn [map checked_sum]; [reflexivity|]. cbn [bind to_value].
  destruct (acc + out_amount o <? U64); [apply IH|constructor].
Qed.
Lemma combine_form l : Forall2 (fun i s => snd s = v0_input i /\ fst s = v0_txin i) l (combine (map v0_txin l) (map v0_input l)).
Proof. induction l; cbn [map combine]; constructor; auto. Qed.

(** The fee is the same, and where there is none the problem is the same. *)
Theorem C145_fee : forall p lock,
  match psbt_fee p, psbt0_fee (v0_form lock p) with
  | Ok f, Ok g => f = g
  | Err e, Err e0 => same_fee_problem e e0
  | _, _ => False
  end.
Proof.
  intros p lock. unfold psbt_fee, psbt0_fee, iter_funding_utxos, psbt_funding_utxos.
  cbn [v0_form p0_inputs p0_unsigned_tx tx_input tx_output]. rewrite !map_length, Nat.eqb_refl. unfold panic_unless. cbn [bind].
  pose proof (sum_form _ _ (combine_form (p_inputs p)) 0) as H.
  destruct (checked_sum FeeInputOverflow _ _) as [a|e|], (checked_sum E0FeeOverflow 0 (map _ (map _ (combine _ _)))) as [b|e0|]; try contradiction; [|exact H].
  subst b. cbn [bind]. pose proof (pay_form (p_outputs p) 0) as H.
  destruct (checked_sum FeeOutputOverflow _ _) as [b|e|], (checked_sum E0FeeOverflow _ _) as [c|e0|]; try contradiction; [|exact H].
  subst c. cbn [bind]. destruct (b <=? a); [reflexivity|constructor].
Qed.
Print Assumptions C145_fee.

Example C145_fee_example :
  psbt_fee tv_all = Ok 21000 /\ psbt0_fee (v0_form 0 tv_all) = Ok 21000
  /\ psbt_fee (ex_of 3 [ex_wpkh; set_in_witness_utxo None ex_sh]) = Err (FeeFundingUtxo FMissingUtxo)
  /\ psbt0_fee (v0_form 0 (ex_of 3 [ex_wpkh; set_in_witness_utxo None ex_sh])) = Err E0MissingUtxo.
Proof. vm_compute. auto. Qed.

(** ** Extraction *)

Lemma signed_form {E} `{C : Cfg} l : Forall finalized l -> signed_inputs (E := E) l = Ok (fill_inputs (map v0_txin l) (map v0_input l)).
Proof.
  induction 1 as [|i l Hi Hl IH]; [reflexivity|]. cbn [signed_inputs map fill_inputs]. rewrite IH.
  unfold input_signed_tx_in. apply finalized_spec in Hi. rewrite Hi, Bool.orb_true_r. cbn [panic_unless bind].
  unfold input_is_finalized, is_some in Hi. cbn [v0_input i0_final_script_sig i0_final_script_witness v0_txin ti_txid ti_vout ti_sequence].
  destruct (in_final_script_sig i), (in_final_script_witness i); try discriminate. cbn [expect bind opt_default].
  reflexivity.
Qed.

(** The same transaction is extracted, without a limit, with the limit of the code and with one's own. *)
Theorem C145_extract : forall (X : Ext) (C : Cfg) p lock, bip370_lock_time p (Some lock) -> Forall finalized (p_inputs p) ->
  extract_tx_unchecked p = Ok (extract0_unchecked (v0_form lock p))
  /\ (forall m t, extract_tx_with_fee_rate_limit m p = Ok t <-> extract0_with_fee_rate_limit m (v0_form lock p) = Ok t)
  /\ (forall t, extract_tx p = Ok t <-> extract0_tx (v0_form lock p) = Ok t).
Proof.
  intros X C p lock H F. assert (E : extract_tx_unchecked p = Ok (extract0_unchecked (v0_form lock p))).
  { unfold extract_tx_unchecked. apply (C18_lock_time p) in H. rewrite H.
    replace (psbt_is_finalized p) with true.
    2:{ symmetry. unfold psbt_is_finalized. apply forallb_forall. intros i Hi. apply finalized_spec. rewrite Forall_forall in F. auto. }
    cbn [negb fail_if bind map_err]. rewrite signed_form by exact F. reflexivity. }
  assert (G : forall m t, extract_tx_with_fee_rate_limit m p = Ok t <-> extract0_with_fee_rate_limit m (v0_form lock p) = Ok t).
  { intros m t. unfold extract_tx_with_fee_rate_limit, extract0_with_fee_rate_limit. rewrite E. pose proof (C145_fee p lock) as HF.
    destruct (psbt_fee p) as [f|e|], (psbt0_fee _) as [g|e0|]; try contradiction; cbn [map_err bind].
    - subst g. cbv zeta. destruct (_ <? _); cbn [fail_if bind]; split; congruence.
    - split; [discriminate|]. destruct HF; discriminate. }
  split; [exact E|]. split; [exact G|]. intros t. apply G.
Qed.
Print Assumptions C145_extract.

Example C145_extract_example : let p := ex_psbt [final (fund 5000 ex_in_a)] [] in
  bip370_lock_time p (Some 0) /\ Forall finalized (p_inputs p)
  /\ extract_tx_unchecked p = Ok (Tx 2 0 [TxIn txid_a 1 [] (2 ^ 32 - 1) [pk_a]] []).
Proof.
  split; [apply C18_lock_time; vm_compute; reflexivity|]. split; [|vm_compute; reflexivity].
  constructor; [|constructor]. apply finalized_spec. reflexivity.
Qed.

(** ** Signing *)

Lemma checked_form `{C : Cfg} p lock n : inputs_counted p ->
  checked_input0 (v0_form lock p) n =
  match checked_input p n with
  | Ok i => Ok (v0_input i)
  | Err (IdxInputs a b) | Err (IdxCount a b) => Err (Idx0Inputs a b)
  | Panic => Panic
  end.
Proof.
  intros H. unfold checked_input0, check_index0, checked_input, check_input_index. rewrite H.
  cbn [v0_form p0_inputs p0_unsigned_tx tx_input]. unfold blen. rewrite !map_length. fold (blen (p_inputs p)).
  destruct (blen (p_inputs p) <=? n) eqn:E; cbn [fail_if bind]; [reflexivity|]. rewrite !nth_N_nth, nth_error_map.
  destruct (nth_error (p_inputs p) (N.to_nat n)); reflexivity.
Qed.
Lemma spend_form `{C : Cfg} p lock n i : inputs_counted p -> checked_input p n = Ok i ->
  spend_utxo (v0_form lock p) n =
  match input_funding_utxo i with
  | Ok u => Ok u
  | Err FMissingUtxo => Err S0MissingSpendUtxo
  | _ => Panic
  end.
Proof.
  intros Hc Hi. unfold spend_utxo. rewrite checked_form, Hi by exact Hc. cbn [map_err bind].
  apply checked_iff in Hi as [Hi _]. unfold input_funding_utxo. cbn [v0_input i0_witness_utxo i0_non_witness_utxo].
  destruct (in_witness_utxo i); [reflexivity|]. destruct (in_non_witness_utxo i) as [t|]; [|reflexivity].
  cbn [v0_form p0_unsigned_tx tx_input]. rewrite !nth_N_nth, nth_error_map, Hi. cbn [option_map expect bind v0_txin ti_vout].
  rewrite nth_N_nth. destruct (nth_error (tx_output t) _); reflexivity.
Qed.
Lemma type_form `{C : Cfg} p lock n i u : inputs_counted p -> checked_input p n = Ok i -> input_funding_utxo i = Ok u ->
  psbt_output_type p n = Base.ok_or (kind_of (to_script u) (in_redeem_script i)) SEUnknownOutputType
  /\ psbt0_output_type (v0_form lock p) n = Base.ok_or (kind_of (to_script u) (in_redeem_script i)) S0UnknownOutputType.
Proof.
  intros Hc Hi Hu. split.
  - rewrite output_type_slot. unfold slot_res. rewrite Hi. cbn [map_err bind]. rewrite Hu. reflexivity.
  - unfold psbt0_output_type. rewrite (spend_form _ _ _ i), checked_form, Hi, Hu by assumption. cbn [map_err bind v0_input i0_redeem_script].
    unfold kind_of. destruct (negb _); auto. destruct (is_p2wpkh _); auto. destruct (is_p2wsh _); auto.
    destruct (is_p2sh _); [|destruct (is_p2tr _); auto]. destruct (in_redeem_script i) as [r|]; auto.
    destruct (is_p2wpkh r); auto. destruct (is_p2wsh r); auto.
Qed.

(** The digest for an input is the same, and where there is none the problem is the same; where the
    output that is spent is not in the transaction that is given, version 0 panics. *)
Theorem C145_digest : forall (X : Ext) (C : Cfg) (S : SignExt) p lock n t, inputs_counted p ->
  match psbt_sighash_ecdsa p n t, psbt0_sighash_ecdsa (v0_form lock p) n t with
  | Ok d, Ok d0 => d = d0
  | Err e, Err e0 => same_sign_problem e e0
  | Err (SEFundingUtxo (FOutOfBounds _ _)), Panic => True
  | Panic, Panic => blen (tx_input t) <= n
  | _, _ => False
  end.
Proof.
  intros X C S p lock n t Hc. unfold psbt_sighash_ecdsa, psbt0_sighash_ecdsa, psbt_signing_algorithm, psbt0_signing_algorithm.
  pose proof (checked_np p n) as Hnp. destruct (checked_input p n) as [i|e|] eqn:Hi; [| |contradiction].
  - destruct (input_funding_utxo i) as [u|e|] eqn:Hu.
    + destruct (type_form p lock n i u Hc Hi Hu) as [E E0]. rewrite E, E0.
      destruct (kind_of _ _) as [o|] eqn:Ek; cbn [Base.ok_or bind]; [|constructor]. apply kind_of_iff in Ek.
      rewrite (spend_form _ _ _ i), checked_form, Hi, Hu by assumption. cbn [map_err bind]. rewrite Hu. cbn [map_err bind].
      unfold input_ecdsa_hash_ty, input0_ecdsa_hash_ty. cbn [v0_input i0_sighash_type i0_redeem_script i0_witness_script].
      destruct o; cbn [outtype_algorithm fail_if bind]; try constructor;
        (destruct (match in_sighash_type i with Some _ => _ | None => _ end) as [ty|]; cbn [Base.ok_or bind]; [|constructor]).
      all: unfold legacy_signature_hash, p2wsh_signature_hash, p2wpkh_signature_hash, p2wpkh_signature_hash0.
      all: try (destruct (in_redeem_script i) eqn:Er; cbn [Base.ok_or expect bind]; try constructor).
      all: try (destruct (in_witness_script i); cbn [Base.ok_or expect bind]; try constructor).
      all: try (destruct (p2wpkh_script_code _); cbn [Base.ok_or expect bind]; try constructor).
      all: try (destruct (N.ltb_spec n (blen (tx_input t))); cbn [Base.ok_or expect bind]; try constructor; auto).
      all: inversion Ek; congruence.
    + unfold psbt_output_type, psbt0_output_type. rewrite (spend_form _ _ _ i), checked_form, Hi, Hu by assumption.
      cbn [map_err bind]. rewrite Hu. cbn [map_err bind]. destruct e; [exact Logic.I|constructor].
    + now apply funding_nopanic in Hu.
  - unfold psbt_output_type, psbt0_output_type. rewrite checked_form, Hi by assumption. cbn [map_err bind]. 
    unfold checked_input, check_input_index in Hi. rewrite Hc in Hi. destruct (blen (p_inputs p) <=? n) eqn:Hl; cbn [fail_if bind] in Hi.
    + injection Hi as <-. constructor.
    + rewrite nth_N_nth in Hi. destruct (nth_error _ _); discriminate.
Qed.
Print Assumptions C145_digest.

Example C145_digest_example :
  let t := p0_unsigned_tx (v0_form 0 tv_all) in
  forallb (fun n => is_ok (psbt_sighash_ecdsa tv_all n t) && is_ok (psbt0_sighash_ecdsa (v0_form 0 tv_all) n t)) [0; 1; 2; 3; 4] = true
  /\ psbt_sighash_ecdsa tv_all 5 t = Err (SEIndexOutOfBounds (IdxInputs 5 5))
  /\ psbt0_sighash_ecdsa (v0_form 0 tv_all) 5 t = Err (S0IndexOutOfBounds (Idx0Inputs 5 5))
  /\ psbt_sighash_ecdsa (ex_of 3 [ex_tr]) 0 t = Err SEWrongSigningAlgorithm
  /\ psbt0_sighash_ecdsa (v0_form 0 (ex_of 3 [ex_tr])) 0 t = Err S0WrongSigningAlgorithm.
Proof. vm_compute. auto. Qed.

Lemma set_nth_map {A B} (f : A -> B) a l : forall n, map f (set_nth n a l) = set_nth n (f a) (map f l).
Proof. induction l as [|b l IH]; intros [|n]; cbn [set_nth map]; try reflexivity. now rewrite IH. Qed.
Lemma set_nth_same {A} (l : list A) a : forall n, nth_error l n = Some a -> set_nth n a l = l.
Proof.
  induction l as [|b l IH]; intros [|n] H; cbn [set_nth nth_error] in *; try discriminate; [injection H as ->; reflexivity|].
  now rewrite IH.
Qed.
Lemma signed_at_form `{C : Cfg} p lock n i sigs ty : nth_error (p_inputs p) (N.to_nat n) = Some i ->
  v0_form lock (clear_tx_modifiable ty (set_p_inputs (set_nth (N.to_nat n) (set_in_partial_sigs sigs i) (p_inputs p)) p))
  = set_p0_inputs (set_nth (N.to_nat n) (set_i0_partial_sigs sigs (v0_input i)) (map v0_input (p_inputs p))) (v0_form lock p).
Proof.
  intros H. destruct (clear_tx_rest ty (set_p_inputs (set_nth (N.to_nat n) (set_in_partial_sigs sigs i) (p_inputs p)) p)) as [f ->].
  unfold v0_form, set_p0_inputs. cbn [p_inputs p_outputs p_global set_p_inputs g_tx_version g_xpubs g_proprietaries g_unknowns set_g_tx_modifiable_flags
    p0_unsigned_tx p0_version p0_xpub p0_proprietary p0_unknown p0_inputs p0_outputs].
  rewrite !set_nth_map. change (v0_txin (set_in_partial_sigs sigs i)) with (v0_txin i).
  rewrite (set_nth_same (map v0_txin (p_inputs p)) (v0_txin i)) by (rewrite nth_error_map, H; reflexivity). reflexivity.
Qed.
Lemma algorithm_form `{X : Ext} `{C : Cfg} `{S : SignExt} p lock n : inputs_counted p ->
  psbt_signing_algorithm p n = Ok AlgoEcdsa -> psbt0_signing_algorithm (v0_form lock p) n = Ok AlgoEcdsa.
Proof.
  intros Hc H. apply algorithm_ecdsa in H as (i & Hi & u & o & Hu & Ho & Hne). apply checked_iff in Hi.
  apply funding_ok_iff in Hu. destruct (type_form p lock n i u Hc Hi Hu) as [_ E]. unfold psbt0_signing_algorithm. rewrite E.
  apply kind_of_iff in Ho. rewrite Ho. cbn [Base.ok_or bind]. destruct o; try reflexivity. contradiction.
Qed.

Lemma sign_step_form `{X : Ext} `{C : Cfg} `{S : SignExt} k n t p lock : inputs_counted p ->
  psbt_signing_algorithm p n = Ok AlgoEcdsa ->
  match bip32_sign_ecdsa k n t p with
  | Ok (p', v) => bip32_sign_ecdsa0 k n t (v0_form lock p) = Ok (v0_form lock p', v) /\ same_but_signed p p'
  | Err e => exists e0, bip32_sign_ecdsa0 k n t (v0_form lock p) = Err e0 /\ same_sign_problem e e0
  | Panic => True
  end.
Proof.
  intros Hc Ha. pose proof (C145_digest X C S p lock n t Hc) as D.
  apply algorithm_ecdsa in Ha as (i & Hat & u & o & Hu & _). pose proof Hat as [Hi _].
  unfold bip32_sign_ecdsa, bip32_sign_ecdsa0. cbn [v0_form p0_inputs]. rewrite !nth_N_nth, nth_error_map, Hi. cbn [option_map expect bind].
  destruct (psbt_sighash_ecdsa p n t) as [[m ty]|e|] eqn:E; [| |exact Logic.I].
  - destruct (psbt0_sighash_ecdsa _ n t) as [d0| |]; try contradiction. subst d0.
    rewrite !sign_loop_ok. cbn [bind expect v0_input i0_bip32_derivation i0_partial_sigs]. split.
    + rewrite (signed_at_form p lock n i _ ty Hi). reflexivity.
    + pose proof (sign_at_same n m ty (found k (in_bip32_derivations i)) p) as Q. unfold sign_at in Q. rewrite Hi in Q. exact Q.
  - rewrite sign_loop_err. destruct (psbt0_sighash_ecdsa _ n t) as [d0|e0|].
    + destruct e as [| | |[]| | | | | | |]; contradiction.
    + cbn [v0_input i0_bip32_derivation i0_partial_sigs]. rewrite (sign_loop_err k e0). destruct (is_empty _); cbn [bind expect]; [exact Logic.I|].
      exists e0. split; [reflexivity|]. destruct e as [| | |[]| | | | | | |]; exact D.
    + exfalso. rewrite sighash_slot, (proj2 (slot_ok p n i u)) in E by auto. cbn [bind] in E. destruct e; try contradiction.
      unfold legacy_signature_hash, p2wpkh_signature_hash, p2wsh_signature_hash in E.
      destruct (kind_of _ _) as [[]|]; try discriminate E;
        (destruct (input_ecdsa_hash_ty i); cbn [Base.ok_or bind] in E; [|discriminate E]);
        try (destruct (in_redeem_script i); cbn [Base.ok_or expect bind] in E; try discriminate E);
        try (destruct (in_witness_script i); cbn [Base.ok_or expect bind] in E; try discriminate E);
        try (destruct (p2wpkh_script_code _); cbn [Base.ok_or expect bind] in E; try discriminate E);
        destruct (n <? blen (tx_input t)); discriminate E.
Qed.

Lemma sign_inputs_form `{X : Ext} `{C : Cfg} `{S : SignExt} `{T : SchnorrExt} k t lock idx : forall p used errs errs0, inputs_counted p ->
  (forall n, In n idx -> psbt_signing_algorithm p n = Ok AlgoEcdsa) -> Forall2 same_problem_at errs errs0 ->
  match sign_inputs k t idx p used errs with
  | Ok (p', used', errs') => exists errs0', sign_inputs0 k t idx (v0_form lock p) (map keys0 used) errs0 = Ok (v0_form lock p', map keys0 used', errs0')
      /\ Forall2 same_problem_at errs' errs0'
  | Err _ => False
  | Panic => True
  end.
Proof.
  induction idx as [|n idx IH]; intros p used errs errs0 Hc Ha He; cbn [sign_inputs sign_inputs0]; [eauto|].
  rewrite (Ha n (or_introl eq_refl)), (algorithm_form p lock n Hc (Ha n (or_introl eq_refl))).
  pose proof (sign_step_form k n t p lock Hc (Ha n (or_introl eq_refl))) as Q.
  destruct (bip32_sign_ecdsa k n t p) as [[p' v]|e|]; [| |exact Logic.I].
  - destruct Q as [Q Hs]. rewrite Q. replace (map keys0 used ++ [(n, KeysEcdsa v)]) with (map keys0 (used ++ [(n, v)])) by now rewrite map_app.
    apply IH; [| |exact He].
    + destruct Hs as [_ HI HG]. unfold inputs_counted, blen in *. rewrite HG. cbn [set_g_tx_modifiable_flags g_input_count].
      rewrite Hc. now rewrite (F2_len _ _ _ HI).
    + intros m Hm. rewrite (algorithm_same p p' m Hs). apply Ha. now right.
  - destruct Q as (e0 & Q & Hp). rewrite Q. apply IH; [exact Hc| |].
    + intros m Hm. apply Ha. now right.
    + apply Forall2_app; [exact He|]. repeat constructor. exact Hp.
Qed.

(** Signing a PSBT for whose inputs ECDSA is used gives the same PSBT and reports the same keys and
    the same problems. *)
Theorem C145_sign : forall (X : Ext) (C : Cfg) (S : SignExt) (T : SchnorrExt) k p lock,
  bip370_lock_time p (Some lock) -> sequences_given p -> inputs_counted p ->
  (forall n i, nth_error (p_inputs p) (N.to_nat n) = Some i -> ecdsa_input p n i) ->
  (forall p' used, signer_sign k p = Ok (p', used) ->
     psbt0_sign k (v0_form lock p) = Ok (v0_form lock p', map keys0 used, []))
  /\ (forall used errs, signer_sign k p = Err (used, errs) ->
       exists q errs0, psbt0_sign k (v0_form lock p) = Ok (q, map keys0 used, errs0) /\ Forall2 same_problem_at errs errs0).
Proof.
  intros X C S T k p lock Hl Hs Hc Ha. pose proof (C145_transaction p lock Hl Hs) as Ht.
  unfold signer_sign, signer_unsigned_tx, psbt0_sign. rewrite Ht. cbn [expect_ok bind].
  replace (input_indices0 (v0_form lock p)) with (input_indices p) by (unfold input_indices, input_indices0; cbn [v0_form p0_inputs]; now rewrite map_length).
  assert (Ha' : forall n, In n (input_indices p) -> psbt_signing_algorithm p n = Ok AlgoEcdsa).
  { intros n Hn. apply input_indices_in in Hn. destruct (nth_N_some _ _ Hn) as [i Hi]. rewrite nth_N_nth in Hi. apply algorithm_ecdsa. eauto. }
  pose proof (sign_inputs_form k (p0_unsigned_tx (v0_form lock p)) lock (input_indices p) p [] [] [] Hc Ha' (Forall2_nil _)) as Q.
  destruct (sign_inputs _ _ _ _ _ _) as [[[p' used'] errs']|e|]; [|contradiction|split; discriminate].
  destruct Q as (errs0 & Q & He). cbn [map] in Q. rewrite Q. split.
  - intros q used H. destruct errs'; [|discriminate]. injection H as -> ->. inversion He; subst. reflexivity.
  - intros used errs H. destruct errs' as [|x l]; [discriminate|]. injection H as -> <-. eauto.
Qed.
Print Assumptions C145_sign.

Lemma tv_all_ecdsa n i : nth_error (p_inputs tv_all) (N.to_nat n) = Some i -> ecdsa_input tv_all n i.
Proof.
  intros H. assert (Hn : n < 5).
  { assert (Q : nth_error (p_inputs tv_all) (N.to_nat n) <> None) by congruence. apply nth_error_Some in Q.
    change (length (p_inputs tv_all)) with 5%nat in Q. lia. }
  assert (A : psbt_signing_algorithm tv_all n = Ok AlgoEcdsa).
  { assert (D : n = 0 \/ n = 1 \/ n = 2 \/ n = 3 \/ n = 4) by lia. destruct D as [->|[->|[->|[->| ->]]]]; vm_compute; reflexivity. }
  apply algorithm_ecdsa in A as (j & Hj). pose proof Hj as [[Hx _] _]. congruence.
Qed.
Example C145_sign_example :
  (forall n i, nth_error (p_inputs tv_all) (N.to_nat n) = Some i -> ecdsa_input tv_all n i)
  /\ brief (signer_sign (ex_keys [ex_sec_a; ex_sec_b]) tv_all) = Some ([2; 2; 2; 2; 2], [(0, 2); (1, 2); (2, 2); (3, 2); (4, 2)], 4).
Proof. split; [exact tv_all_ecdsa|vm_compute; reflexivity]. Qed.

(** For other inputs it does not: version 2 does not sign for a taproot output, and does not say so. *)
Definition tv_tr : psbt :=
  ex_of 3 [set_in_sequence (Some 5) (set_in_tap_internal_key (Some (repeat x44 32)) (set_in_tap_key_origins [(repeat x44 32, ([], ex_src 1))] ex_tr))].
Definition tv_provider : provider := fun _ => inr (Some (PrivKey true ex_sec_a)).
Definition tap_signed (p : psbt0) : list bool := map (fun i => is_some (i0_tap_key_sig i)) (p0_inputs p).
Theorem C145_sign_refuted : exists k p lock p' used q used0,
  bip370_lock_time p (Some lock) /\ sequences_given p /\ inputs_counted p
  /\ signer_sign k p = Ok (p', used) /\ psbt0_sign k (v0_form lock p) = Ok (q, used0, []) /\ q <> v0_form lock p'.
Proof.
  exists tv_provider, tv_tr, 0.
  destruct (signer_sign tv_provider tv_tr) as [[p' used]| |] eqn:E; [|exfalso; revert E; vm_compute; discriminate..].
  destruct (psbt0_sign tv_provider (v0_form 0 tv_tr)) as [[[q used0] errs]| |] eqn:E0; [|exfalso; revert E0; vm_compute; discriminate..].
  exists p', used, q, used0. split; [apply (C18_lock_time tv_tr); vm_compute; reflexivity|]. split; [repeat constructor; discriminate|].
  split; [reflexivity|]. split; [reflexivity|].
  assert (A : match signer_sign tv_provider tv_tr with Ok (x, _) => tap_signed (v0_form 0 x) | _ => [] end = [false]) by (vm_compute; reflexivity).
  assert (B : match psbt0_sign tv_provider (v0_form 0 tv_tr) with Ok (x, _, []) => tap_signed x | _ => [] end = [true]) by (vm_compute; reflexivity).
  rewrite E in A. rewrite E0 in B. destruct errs; [|discriminate B]. split; [reflexivity|]. intros ->. congruence.
Qed.
Print Assumptions C145_sign_refuted.
