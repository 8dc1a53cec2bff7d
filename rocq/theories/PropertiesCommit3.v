(** C152: the checks of the v0 signer and the fee. *)
From Verif Require Import Base OMap Consensus ConsensusFacts Ext RealExt RealLaws RealSign ExtInstance Serialize SerializeFacts
  V2Roles V2Sign SpecSign V2SignFacts SampleV2 V0Input V0Output V0Psbt SpecPsbt0 V0WireFacts SpecExtract0 V0ExtractFacts V0Sign SpecSign0 V0SignFacts
  V0CheckFacts DigestFacts SpecCommit PropertiesV0Extract PropertiesV0Sign PropertiesV0Check PropertiesCommit.
Local Open Scope N_scope.

(** The output that an input spends is only known from the whole previous transaction. *)
Definition whole (s : txin * input0) : Prop := i0_witness_utxo (snd s) = None.

(** ** One input *)

Theorem C152_output : forall p s u p' s' u',
  @wf_psbt0 real_root p -> @wf_psbt0 real_root p' -> @signer_checks real_root p = Ok tt -> @signer_checks real_root p' = Ok tt ->
  In s (spends p) -> In s' (spends p') -> whole s -> whole s' -> funds0 s u -> funds0 s' u' ->
  ti_txid (fst s) = ti_txid (fst s') -> ti_vout (fst s) = ti_vout (fst s') ->
  collision_found \/ u = u'.
Proof.
  intros p s u p' s' u' W W' K K' Hs Hs' Hw Hw' Hu Hu' E1 E2.
  destruct (C49_sound_partial real_root real_root_laws p s (wp0_input_count _ W) K Hs) as [T _].
  destruct (C49_sound_partial real_root real_root_laws p' s' (wp0_input_count _ W') K' Hs') as [T' _].
  assert (F : forall p s t, @wf_psbt0 real_root p -> In s (spends p) -> i0_non_witness_utxo (snd s) = Some t -> wf_tx t).
  { clear. intros p [i m] t W Hs E. apply in_combine_r in Hs. pose proof (wp0_inputs _ W) as F. rewrite Forall_forall in F.
    apply F in Hs. pose proof (wi0_non_witness_utxo _ Hs) as Q. cbn [snd] in E. rewrite E in Q. apply Q. }
  destruct Hu as [Hu|[_ (t & Et & N)]]; [unfold whole in Hw; congruence|]. destruct Hu' as [Hu|[_ (t' & Et' & N')]]; [unfold whole in Hw'; congruence|].
  pose proof (F p s t W Hs Et) as Wt. pose proof (F p' s' t' W' Hs' Et') as Wt'. clear F.
  specialize (T t Et). specialize (T' t' Et'). rewrite <- E1, <- T in T'. unfold sha256d in T'. apply twice_inj in T' as [T'|B]; [right|now left].
  assert (Q : enc_tx_nowit t ++ [] = enc_tx_nowit t' ++ []) by now rewrite !app_nil_r.
  apply nowit_inj in Q as (_ & _ & _ & Q & _); auto. congruence.
Qed.
Print Assumptions C152_output.

(** ** The fee *)

Lemma checked_values p p' : forall l l' vs vs',
  @wf_psbt0 real_root p -> @wf_psbt0 real_root p' -> @signer_checks real_root p = Ok tt -> @signer_checks real_root p' = Ok tt ->
  (forall s, In s l -> In s (spends p) /\ whole s) -> (forall s, In s l' -> In s (spends p') /\ whole s) ->
  map (fun s => (ti_txid (fst s), ti_vout (fst s))) l = map (fun s : txin * input0 => (ti_txid (fst s), ti_vout (fst s))) l' ->
  funded0 l vs -> funded0 l' vs' -> collision_found \/ vs = vs'.
Proof.
  intros l l' vs vs' W W' K K' I I' E F. revert l' vs' I' E.
  induction F as [|s v l vs (u & Hu & Ev) F IH]; intros [|s' l'] vs' I' E F'; try discriminate E; inversion F' as [|x v' y vs2 (u' & Hu' & Ev') F2]; subst; [now right|].
  cbn [map] in E. injection E as E1 E2 E.
  destruct (IH (fun s H => I s (or_intror H)) l' vs2 (fun s H => I' s (or_intror H)) E F2) as [B| ->]; [now left|].
  destruct (I s (or_introl eq_refl)) as [Hs Hw], (I' s' (or_introl eq_refl)) as [Hs' Hw'].
  destruct (C152_output p s u p' s' u' W W' K K' Hs Hs' Hw Hw' Hu Hu' E1 E2) as [B| ->]; [now left|now right].
Qed.
Lemma spends_outpoints p : one_map_per_input p -> map (fun s : txin * input0 => (ti_txid (fst s), ti_vout (fst s))) (spends p) = outpoints p.
Proof.
  unfold one_map_per_input, spends, outpoints. generalize (p0_inputs p) (tx_input (p0_unsigned_tx p)). intros l k. revert l.
  induction k as [|i k IH]; intros [|m l] H; try discriminate H; [reflexivity|]. cbn. f_equal. apply IH. now injection H.
Qed.
Theorem C152_fee : forall p p' f f',
  @wf_psbt0 real_root p -> @wf_psbt0 real_root p' -> @signer_checks real_root p = Ok tt -> @signer_checks real_root p' = Ok tt ->
  Forall whole (spends p) -> Forall whole (spends p') -> outpoints p = outpoints p' -> outputs p = outputs p' ->
  psbt0_fee p = Ok f -> psbt0_fee p' = Ok f' -> collision_found \/ f = f'.
Proof.
  intros p p' f f' W W' K K' H H' E O Hf Hf'. apply C79_fee_ok in Hf as (C & vs & F & _ & _ & Hf). apply C79_fee_ok in Hf' as (C' & vs' & F' & _ & _ & Hf').
  rewrite <- spends_outpoints in E by exact C. rewrite <- (spends_outpoints p') in E by exact C'. rewrite Forall_forall in H, H'.
  destruct (checked_values p p' (spends p) (spends p') vs vs' W W' K K' (fun s I => conj I (H s I)) (fun s I => conj I (H' s I)) E F F') as [B| ->]; [now left|right].
  unfold pays0, outputs in *. rewrite O in Hf. lia.
Qed.
Print Assumptions C152_fee.

(** So with the checks, and no witness utxos, a signature of type ALL covers the fee. *)
Theorem C152_segwit : forall p n s u p' n' s' u' m f f',
  @wf_psbt0 real_root p -> @wf_psbt0 real_root p' -> @signer_checks real_root p = Ok tt -> @signer_checks real_root p' = Ok tt ->
  Forall whole (spends p) -> Forall whole (spends p') ->
  spend_at p n s -> funds0 s u -> (exists c, script_code s u c) -> spend_at p' n' s' -> funds0 s' u' -> (exists c, script_code s' u' c) ->
  @psbt0_sighash_ecdsa real_signer p n (p0_unsigned_tx p) = Ok (m, 0x01) ->
  @psbt0_sighash_ecdsa real_signer p' n' (p0_unsigned_tx p') = Ok (m, 0x01) ->
  psbt0_fee p = Ok f -> psbt0_fee p' = Ok f' -> collision_found \/ f = f'.
Proof.
  intros p n s u p' n' s' u' m f f' W W' K K' H H' Hs Hu Hc Hs' Hu' Hc' M M' Hf Hf'.
  destruct (C150_segwit real_root p n s u 0x01 p' n' s' u' 0x01 m W W' Hs Hu Hc Hs' Hu' Hc' M M') as [B|(_ & _ & _ & _ & _ & _ & A & _ & O & _)]; [now left|].
  apply (C152_fee p p' f f' W W' K K' H H'); auto; [apply A|apply O]; cbn; unfold all_inputs, all_outputs; cbn; tauto.
Qed.
Print Assumptions C152_segwit.

Theorem C152_legacy : forall p n s u c p' n' s' u' c' m f f',
  @wf_psbt0 real_root p -> @wf_psbt0 real_root p' -> @signer_checks real_root p = Ok tt -> @signer_checks real_root p' = Ok tt ->
  Forall whole (spends p) -> Forall whole (spends p') ->
  spend_at p n s -> funds0 s u -> legacy_code s u c -> spend_at p' n' s' -> funds0 s' u' -> legacy_code s' u' c' ->
  @psbt0_sighash_ecdsa real_signer p n (p0_unsigned_tx p) = Ok (m, 0x01) ->
  @psbt0_sighash_ecdsa real_signer p' n' (p0_unsigned_tx p') = Ok (m, 0x01) ->
  psbt0_fee p = Ok f -> psbt0_fee p' = Ok f' -> collision_found \/ f = f'.
Proof.
  intros p n s u c p' n' s' u' c' m f f' W W' K K' H H' Hs Hu Hc Hs' Hu' Hc' M M' Hf Hf'.
  assert (Z : ~ one_output 0x01) by (unfold one_output; cbn; intros [Z|[Z|Z]]; [discriminate Z|discriminate Z|exact Z]).
  destruct (C150_legacy real_root p n s u c 0x01 p' n' s' u' c' 0x01 m W W' Hs Hu Hc Hs' Hu' Hc' (fun Q => False_ind _ (Z Q)) (fun Q => False_ind _ (Z Q)) M M')
    as [B|(_ & _ & _ & _ & A & _ & O & _)]; [now left|].
  apply (C152_fee p p' f f' W W' K K' H H'); auto; [apply A|apply O]; cbn; unfold all_inputs, all_outputs; cbn; tauto.
Qed.
Print Assumptions C152_legacy.

(** ** Witness utxos beside previous transactions *)

(** The checks do not compare the two: with both given the amount of the witness utxo counts, whatever
    the previous transaction says, so the fee can be lied about. *)
#[local] Existing Instance toy | 100.
Definition cb_in (v : N) : bytes * input0 :=
  (compute_txid (ck_prev (program_script 0 (repeat x11 20))),
   set_i0_witness_utxo (Some (TxOut v (program_script 0 (repeat x11 20))))
     (set_i0_non_witness_utxo (Some (ck_prev (program_script 0 (repeat x11 20)))) input0_default)).
Definition cb_psbt (v : N) : psbt0 := ck_of [cb_in 5000; cb_in v].
Lemma cb_sighash (S : SignExt) v t : 0 < blen (tx_input t) ->
  psbt0_sighash_ecdsa (cb_psbt v) 0 t = Ok (segwit_digest t 0 (p2pkh_script (repeat x11 20)) 5000 1, 1).
Proof.
  intros Ht. apply (C33_v0_digest toy S); [exact Ht|]. eexists (_, snd (cb_in 5000)), (TxOut 5000 (program_script 0 (repeat x11 20))).
  split; [reflexivity|]. split; [now left|]. split; [split; [cbn; tauto|right; split; reflexivity]|].
  exact (M0Wpkh _ _ _ _ (TxOut 5000 (program_script 0 (repeat x11 20))) _ _ ec_kind).
Qed.
Theorem C152_witness_utxo_refuted : exists (X : Ext) (L : ExtLaws X), forall S : SignExt, exists p p' m f f',
  wf_psbt0 p /\ wf_psbt0 p' /\ signer_checks p = Ok tt /\ signer_checks p' = Ok tt
  /\ Forall (fun s => i0_non_witness_utxo (snd s) <> None) (spends p)
  /\ map i0_non_witness_utxo (p0_inputs p) = map i0_non_witness_utxo (p0_inputs p') /\ p0_unsigned_tx p = p0_unsigned_tx p'
  /\ psbt0_sighash_ecdsa p 0 (p0_unsigned_tx p) = Ok (m, 0x01) /\ psbt0_sighash_ecdsa p' 0 (p0_unsigned_tx p') = Ok (m, 0x01)
  /\ psbt0_fee p = Ok f /\ psbt0_fee p' = Ok f' /\ f < f'.
Proof.
  exists toy, toy_laws. intros S.
  assert (Hw : forall p, psbt0_deserialize (psbt0_serialize p) = Ok p -> wf_psbt0 p) by (intros p; apply deserialize0_wf).
  exists (cb_psbt 5000), (cb_psbt 1000000). eexists. exists 6000, 1001000.
  split; [apply Hw; vm_compute; reflexivity|]. split; [apply Hw; vm_compute; reflexivity|].
  split; [vm_compute; reflexivity|]. split; [vm_compute; reflexivity|].
  split; [repeat constructor; discriminate|]. split; [reflexivity|]. split; [reflexivity|].
  assert (E : p0_unsigned_tx (cb_psbt 1000000) = p0_unsigned_tx (cb_psbt 5000)) by reflexivity. rewrite E. clear E.
  split; [apply cb_sighash; reflexivity|]. split; [apply cb_sighash; reflexivity|]. split; [vm_compute; reflexivity|]. split; [vm_compute; reflexivity|]. lia.
Qed.
Print Assumptions C152_witness_utxo_refuted.

(** A PSBT that meets the hypotheses, with a segwit and a legacy input. *)
Definition cw_prev : tx := Tx 2 0 [TxIn txid_b 7 [] 0 []] [TxOut 5000 (program_script 0 (repeat x11 20)); TxOut 6000 (p2pkh_script (repeat x11 20))].
Definition cw_txid : bytes := Eval vm_compute in @compute_txid real_root cw_prev.
Definition cw_psbt : psbt0 :=
  Psbt0 (Tx 2 0 [TxIn cw_txid 0 [] 4294967295 []; TxIn cw_txid 1 [] 4294967295 []] [TxOut 4000 p2wpkh_a]) 0 [] [] []
    (repeat (set_i0_non_witness_utxo (Some cw_prev) input0_default) 2) [output0_default].
Example C152_case :
  @wf_psbt0 real_root cw_psbt /\ @signer_checks real_root cw_psbt = Ok tt /\ Forall whole (spends cw_psbt) /\ psbt0_fee cw_psbt = Ok 7000
  /\ (exists s u, spend_at cw_psbt 0 s /\ funds0 s u /\ exists c, script_code s u c)
  /\ (exists s u c, spend_at cw_psbt 1 s /\ funds0 s u /\ legacy_code s u c)
  /\ forall S : SignExt, exists m m', psbt0_sighash_ecdsa cw_psbt 0 (p0_unsigned_tx cw_psbt) = Ok (m, 0x01)
       /\ psbt0_sighash_ecdsa cw_psbt 1 (p0_unsigned_tx cw_psbt) = Ok (m', 0x01).
Proof.
  split; [apply (@deserialize0_wf real_root real_root_laws (@psbt0_serialize real_root cw_psbt)); vm_compute; reflexivity|].
  split; [vm_compute; reflexivity|]. split; [repeat constructor|]. split; [vm_compute; reflexivity|].
  assert (F0 : funds0 (TxIn cw_txid 0 [] 4294967295 [], set_i0_non_witness_utxo (Some cw_prev) input0_default) (TxOut 5000 (program_script 0 (repeat x11 20)))).
  { right. split; [reflexivity|]. exists cw_prev. split; reflexivity. }
  assert (F1 : funds0 (TxIn cw_txid 1 [] 4294967295 [], set_i0_non_witness_utxo (Some cw_prev) input0_default) (TxOut 6000 (p2pkh_script (repeat x11 20)))).
  { right. split; [reflexivity|]. exists cw_prev. split; reflexivity. }
  assert (Kb : output_kind (p2pkh_script (repeat x11 20)) None Bare) by (apply (kind0_iff (TxIn [] 0 [] 0 [], input0_default) (TxOut 6000 (p2pkh_script (repeat x11 20)))); reflexivity).
  split; [|split].
  - eexists (_, _), _. split; [reflexivity|]. split; [exact F0|]. exists (p2pkh_script (repeat x11 20)). apply CodeWpkh, ec_kind.
  - eexists (_, _), _, _. split; [reflexivity|]. split; [exact F1|]. apply (CodeBare (TxIn cw_txid 1 [] 4294967295 [], set_i0_non_witness_utxo (Some cw_prev) input0_default) (TxOut 6000 (p2pkh_script (repeat x11 20)))). exact Kb.
  - intros S. eexists _, _. split.
    + apply (C33_v0_digest real_root S); [reflexivity|]. eexists (_, _), _. split; [reflexivity|]. split; [exact F0|].
      split; [split; [cbn; tauto|right; split; reflexivity]|]. exact (M0Wpkh _ _ _ _ (TxOut 5000 (program_script 0 (repeat x11 20))) _ _ ec_kind).
    + apply (C33_v0_digest real_root S); [reflexivity|]. eexists (_, _), _. split; [reflexivity|]. split; [exact F1|].
      split; [split; [cbn; tauto|right; split; reflexivity]|]. exact (M0Bare _ _ None _ (TxOut 6000 (p2pkh_script (repeat x11 20))) _ Kb).
Qed.
