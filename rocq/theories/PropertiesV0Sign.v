(** C32, C33, C48, C49, C60, C61, C63-C65 for v0 and C81-C87: signing v0 PSBTs. *)
From Coq Require Import Sorted.
From Verif Require Import Base OMap Consensus ConsensusFacts Ext ExtInstance Raw TapTree Serialize SerializeFacts MapCodec
  V2Global V2Input V2Psbt SampleV2 V2Roles Script SighashType V2Sign SignInstance SpecSign V2SignFacts V2SignMergeFacts
  V0Error V0Input V0Output V0Psbt SpecPsbt0 V0WireFacts SampleV0 SpecExtract0 V0ExtractFacts V0Sign SchnorrInstance SpecSign0 V0SignFacts
  V0SignResultFacts V0CheckFacts.
Local Open Scope N_scope.

(** Used by the examples only; the theorems bind their own. *)
#[local] Existing Instance toy | 100.
#[local] Existing Instance toy_sign | 100.
#[local] Existing Instance toy_schnorr | 100.

(** Values for the examples: an extended key and keys derived from it, and inputs of all kinds. *)
Definition ex0_x : toy_xprv := ToyXprv [x05] [] [x00; x00; x00; x00].
Definition ex0_src (n : N) : keysource := KeySource (toy_fp [x05] []) [n].
Definition ex0_sk (n : N) : privkey := PrivKey true (toy_hash 32 43 ([x05] ++ le_enc 4 n)).
Definition ex0_pk (n : N) : bytes := toy_pubkey (pv_secret (ex0_sk n)).
Definition ex0_xo (n : N) : bytes := xonly_of (ex0_pk n).
Definition ex0_keys : provider := @xprv_get_key toy_sign ex0_x.
Definition ex0_in (script : bytes) : input0 :=
  set_i0_bip32_derivation (m_put bkey (ex0_pk 2) (ex0_src 2) [(ex0_pk 1, ex0_src 1)])
    (set_i0_witness_utxo (Some (TxOut 5000 script)) input0_default).
Definition ex0_wpkh : input0 := ex0_in (program_script 0 (repeat x11 20)).
Definition ex0_wsh : input0 := set_i0_sighash_type (Some 131) (set_i0_witness_script (Some [x51]) (ex0_in (program_script 0 (repeat x22 32)))).
Definition ex0_sh : input0 := set_i0_redeem_script (Some [x52]) (ex0_in (p2sh_script (repeat x33 20))).
Definition ex0_bare : input0 := ex0_in (p2pkh_script (repeat x55 20)).
Definition ex0_shwsh : input0 :=
  set_i0_witness_script (Some [x53]) (set_i0_redeem_script (Some (program_script 0 (repeat x66 32))) (ex0_in (p2sh_script (repeat x77 20)))).
(** A taproot output with internal key 3, merkle root and two leaves that need key 4. *)
Definition ex0_root : bytes := repeat x99 32.
Definition ex0_leaf (b : byte) : bytes := repeat b 32.
Definition ex0_tr : input0 :=
  set_i0_tap_internal_key (Some (ex0_xo 3)) (set_i0_tap_merkle_root (Some ex0_root)
    (set_i0_tap_key_origins (m_put bkey (ex0_xo 3) ([], ex0_src 3) (m_put bkey (ex0_xo 4) ([ex0_leaf xa1; ex0_leaf xa2], ex0_src 4) []))
       (set_i0_witness_utxo (Some (TxOut 5000 (program_script 1 (output_key (ex0_xo 3) (Some ex0_root))))) input0_default))).
Definition ex0_of (is : list input0) : psbt0 :=
  Psbt0 (Tx 2 0 (map (fun n => TxIn txid_a (N.of_nat n) [] 4294967295 []) (seq 0 (length is))) [TxOut 4000 p2wpkh_a]) 0 [] [] [] is [output0_default].
Definition ex0_all : psbt0 := ex0_of [ex0_wpkh; ex0_wsh; ex0_sh; ex0_tr; ex0_bare; ex0_shwsh].
(** A result is there and has the property. *)
Definition then_holds {E A} (r : res E A) (P : A -> Prop) : Prop := match r with Ok a => P a | _ => False end.
Lemma ex0_wf p : psbt0_deserialize (psbt0_serialize p) = Ok p -> wf_psbt0 p.
Proof. apply deserialize0_wf. Qed.
Lemma wf_signable p : @wf_psbt0 toy p -> one_map_per_input p /\ Forall sorted_origins (p0_inputs p).
Proof.
  intros H. split; [exact (wp0_input_count _ H)|]. pose proof (wp0_inputs _ H) as Hi. eapply Forall_impl; [|exact Hi].
  intros i Hw. exact (proj1 (wi0_tap_key_origins _ Hw)).
Qed.
Lemma ex0_all_wf : wf_psbt0 ex0_all.
Proof. apply ex0_wf. vm_compute. reflexivity. Qed.

(** ** C32: output types *)

Theorem C32_v0_output_type : forall (X : Ext) p n s u o,
  spend_at p n s -> funds0 s u ->
  (psbt0_output_type p n = Ok o <-> output_kind (to_script u) (i0_redeem_script (snd s)) o).
Proof.
  intros X p n s u o H1 H2. rewrite output_type0_slot, (proj2 (slot0_ok p n s u)) by auto. cbn [bind].
  rewrite <- kind0_iff. destruct (kind0 _); cbn [ok_or]; split; congruence.
Qed.
Print Assumptions C32_v0_output_type.

Theorem C32_v0_algorithm : forall (X : Ext) p n s,
  spend_at p n s ->
  (psbt0_signing_algorithm p n = Ok AlgoSchnorr <-> spends_taproot s)
  /\ (psbt0_signing_algorithm p n = Ok AlgoEcdsa <-> spends_ecdsa s)
  /\ (psbt0_signing_algorithm p n = Err S0MissingSpendUtxo <-> no_utxo s)
  /\ (psbt0_signing_algorithm p n = Err S0UnknownOutputType <->
      (exists u, funds0 s u /\ (exists v g, program (to_script u) v g)
                 /\ forall h, ~ p2wpkh_hash (to_script u) h /\ ~ p2wsh_hash (to_script u) h /\ ~ p2tr_key (to_script u) h))
  /\ (psbt0_signing_algorithm p n = Panic <-> vout_out_of_bounds s).
Proof.
  intros X p n s Hs. split; [now apply spends_taproot_iff|]. split; [now apply spends_ecdsa_iff|].
  assert (Hsome : forall s', spend_at p n s' -> s' = s) by (intros s' H; eapply spend_at_fun; eassumption).
  split; [|split].
  - assert (E : no_utxo s <-> exists s, spend_at p n s /\ no_utxo s).
    { split; [eauto|]. intros (s' & H1 & H2). now rewrite <- (Hsome s' H1). }
    rewrite E, <- slot0_missing, algorithm0_slot. destruct (slot0 p n) as [x|e|]; cbn [bind]; [destruct (kind0 x); split; discriminate| |split; discriminate].
    split; intros H; injection H as ->; reflexivity.
  - rewrite algorithm0_slot. split.
    + pose proof (slot0_spec p n) as Hsp. destruct (slot0 p n) as [[s' u]|e|]; cbn [bind]; [|intros E; injection E as ->; contradiction|discriminate].
      destruct Hsp as [H1 H2]. apply Hsome in H1. subst s'. destruct (kind0 (s, u)) eqn:Ek; [discriminate|]. intros _.
      exists u. split; [assumption|]. now apply kind_unknown in Ek.
    + intros (u & Hu & Hk). rewrite (proj2 (slot0_ok p n s u)) by auto. cbn [bind]. replace (kind0 (s, u)) with (@None outtype); [reflexivity|].
      symmetry. now apply kind_unknown.
  - rewrite algorithm0_panic. split; [|eauto]. intros (s' & H1 & H2). now rewrite <- (Hsome s' H1).
Qed.
Print Assumptions C32_v0_algorithm.

Example C32_v0_example : map (psbt0_output_type ex0_all) [0; 1; 2; 3; 4; 5]
  = [Ok Wpkh; Ok Wsh; Ok Sh; Ok Tr; Ok Bare; Ok ShWsh]
  /\ psbt0_output_type (ex0_of [ex0_in (program_script 1 (repeat x44 20))]) 0 = Err S0UnknownOutputType
  /\ psbt0_output_type (ex0_of [input0_default]) 0 = Err S0MissingSpendUtxo
  /\ spend_at ex0_all 0 (TxIn txid_a 0 [] 4294967295 [], ex0_wpkh)
  /\ funds0 (TxIn txid_a 0 [] 4294967295 [], ex0_wpkh) (TxOut 5000 (program_script 0 (repeat x11 20))).
Proof.
  split; [vm_compute; reflexivity|]. split; [vm_compute; reflexivity|]. split; [vm_compute; reflexivity|]. split; [reflexivity|]. now left.
Qed.

(** ** C33: the message that is signed with ECDSA *)

Theorem C33_v0_digest : forall (X : Ext) (S : SignExt) p n t m ty,
  n < blen (tx_input t) -> (psbt0_sighash_ecdsa p n t = Ok (m, ty) <-> to_sign0 p t n m ty).
Proof. intros X S. exact sighash0_iff. Qed.
Print Assumptions C33_v0_digest.

(** What is missing when it fails. *)
Theorem C33_v0_missing : forall (X : Ext) (S : SignExt) p n s,
  spend_at p n s -> spends_ecdsa s -> forall e,
  psbt0_sighash_ecdsa p n (p0_unsigned_tx p) = Err e <-> ecdsa_error s e.
Proof. intros X S p n s. apply sighash0_error. Qed.
Print Assumptions C33_v0_missing.

(** The transaction is that of the caller's cache: if it has fewer inputs than the PSBT, a
    legacy input panics ([expect("input checked above")]) where a segwit input is an error. *)
Theorem C33_v0_other_transaction : forall (X : Ext) (S : SignExt) p n t,
  blen (tx_input t) <= n ->
  (psbt0_sighash_ecdsa p n t = Panic <->
   exists s, spend_at p n s
     /\ (vout_out_of_bounds s
         \/ exists ty, type_of_input0 (snd s) ty
              /\ (spends_kind s Bare \/ spends_kind s Sh /\ i0_redeem_script (snd s) <> None))).
Proof.
  intros X S p n t Hn. rewrite sighash0_slot.
  unfold legacy_signature_hash, p2wpkh_signature_hash0, p2wsh_signature_hash. replace (n <? blen (tx_input t)) with false by lia. split.
  - pose proof (slot0_spec p n) as Hsp. destruct (slot0 p n) as [[s u]|e|]; cbn [bind fst snd]; [|discriminate|].
    2:{ destruct Hsp as (s & H1 & H2). intros _. exists s. auto. }
    destruct Hsp as [Hs Hu]. destruct (kind0 (s, u)) as [o|] eqn:Ek; [|discriminate]. apply kind0_iff in Ek.
    assert (Hk : spends_kind s o) by (exists u; auto).
    destruct o; try discriminate; (destruct (input0_ecdsa_hash_ty (snd s)) as [ty|] eqn:Et; cbn [ok_or bind]; [|discriminate]); apply hash_ty0_iff in Et.
    + intros _. exists s. split; [assumption|]. right. exists ty. auto.
    + destruct (p2wpkh_script_code _); cbn; discriminate.
    + destruct (i0_witness_script (snd s)); cbn; discriminate.
    + inversion Ek as [| | |r h Hp Hr Hh| | |]. rewrite Hr. cbn [expect bind]. destruct (p2wpkh_script_code _); cbn; discriminate.
    + destruct (i0_witness_script (snd s)); cbn; discriminate.
    + destruct (i0_redeem_script (snd s)) eqn:Er; cbn; [|discriminate]. intros _. exists s. split; [assumption|]. right. exists ty.
      split; [assumption|]. right. split; [assumption|congruence].
  - intros (s & Hs & [Ho|(ty & Hty & Hk)]).
    + rewrite (proj2 (slot0_panic p n)) by eauto. reflexivity.
    + apply hash_ty0_iff in Hty. destruct Hk as [(u & Hu & Ho)|[(u & Hu & Ho) Hr]];
        rewrite (proj2 (slot0_ok p n s u)) by auto; cbn [bind fst snd]; rewrite (proj2 (kind0_iff _ _ _) Ho), Hty; cbn [ok_or bind]; [reflexivity|].
      destruct (i0_redeem_script (snd s)); [reflexivity|congruence].
Qed.
Print Assumptions C33_v0_other_transaction.

Example C33_v0_example :
  let t := p0_unsigned_tx ex0_all in
  blen (tx_input t) = 6
  /\ to_sign0 ex0_all t 0 (segwit_digest t 0 (p2pkh_script (repeat x11 20)) 5000 1) 1
  /\ map (fun n => psbt0_sighash_ecdsa ex0_all n t) [0; 1; 2; 3; 4; 5]
     = [Ok (segwit_digest t 0 (p2pkh_script (repeat x11 20)) 5000 1, 1); Ok (segwit_digest t 1 [x51] 5000 131, 131);
        Ok (legacy_digest t 2 [x52] 1, 1); Err S0WrongSigningAlgorithm; Ok (legacy_digest t 4 (p2pkh_script (repeat x55 20)) 1, 1);
        Ok (segwit_digest t 5 [x53] 5000 1, 1)]
  /\ psbt0_sighash_ecdsa ex0_all 4 (Tx 2 0 [] []) = Panic.
Proof.
  split; [vm_compute; reflexivity|]. split; [|vm_compute; auto]. apply sighash0_iff; vm_compute; reflexivity.
Qed.

(** ** C87: the taproot message *)

Theorem C87_digest : forall (X : Ext) (T : SchnorrExt) p n leaf m ty,
  vouts_in_bounds p ->
  (psbt0_sighash_taproot p n (p0_unsigned_tx p) leaf = Ok (m, ty) <-> taproot_to_sign p n leaf m ty).
Proof. intros X T p n leaf m ty. apply taproot0_iff. Qed.
Print Assumptions C87_digest.

Theorem C87_error : forall (X : Ext) (T : SchnorrExt) p n s leaf e,
  vouts_in_bounds p -> one_map_per_input p -> spend_at p n s -> spends_taproot s ->
  (psbt0_sighash_taproot p n (p0_unsigned_tx p) leaf = Err e <-> taproot_error p n s e).
Proof. intros X T p n s leaf e. apply taproot0_error. Qed.
Print Assumptions C87_error.

(** It panics only if some input, not necessarily the one signed, has an index that is too high. *)
Theorem C87_panic : forall (X : Ext) (T : SchnorrExt) p n t leaf,
  psbt0_sighash_taproot p n t leaf = Panic -> Exists vout_out_of_bounds (spends p).
Proof.
  intros X T p n t leaf H. apply taproot0_panic in H as (a & s & Hs & Ho). apply Exists_exists. exists s. split; [|assumption].
  apply spend_at_in. eauto.
Qed.
Print Assumptions C87_panic.

(** With ANYONECANPAY the outputs that other inputs spend do not matter; otherwise all are needed. *)
Example C87_example :
  let one i := ex0_of [i; input0_default] in
  let acp := set_i0_sighash_type (Some 129) ex0_tr in
  let u := TxOut 5000 (program_script 1 (output_key (ex0_xo 3) (Some ex0_root))) in
  psbt0_sighash_taproot (ex0_of [ex0_tr; ex0_wpkh]) 0 (p0_unsigned_tx (one ex0_tr)) None
    = Ok (taproot_digest (p0_unsigned_tx (one ex0_tr)) 0 (PrevoutsAll [u; TxOut 5000 (program_script 0 (repeat x11 20))]) None 0, 0)
  /\ psbt0_sighash_taproot (one ex0_tr) 0 (p0_unsigned_tx (one ex0_tr)) None = Err S0MissingSpendUtxo
  /\ psbt0_sighash_taproot (one acp) 0 (p0_unsigned_tx (one acp)) (Some (ex0_leaf xa1))
    = Ok (taproot_digest (p0_unsigned_tx (one acp)) 0 (PrevoutsOne 0 u) (Some (ex0_leaf xa1)) 129, 129)
  /\ psbt0_sighash_taproot (ex0_of [ex0_wpkh; set_i0_sighash_type (Some 3) ex0_tr]) 1 (p0_unsigned_tx (one ex0_tr)) None = Err S0TaprootError
  /\ vouts_in_bounds (one acp) /\ one_map_per_input (one ex0_tr).
Proof.
  split; [vm_compute; reflexivity|]. split; [vm_compute; reflexivity|]. split; [vm_compute; reflexivity|]. split; [vm_compute; reflexivity|].
  split; [|reflexivity]. repeat constructor; intros [H (t & Ht & _)]; discriminate.
Qed.

(** ** C48: when signing panics *)

(** Signing panics exactly when a previous transaction has too few outputs: indexing in
    [spend_utxo] (line 625) is out of range. *)
Theorem C48_sign_panic_iff : forall (X : Ext) (S : SignExt) (T : SchnorrExt) k p,
  psbt0_sign k p = Panic <-> Exists vout_out_of_bounds (spends p).
Proof. intros X S T k p. apply sign0_panic_iff. Qed.
Print Assumptions C48_sign_panic_iff.

Theorem C48_sign_refuted : exists (X : Ext) (S : SignExt) (T : SchnorrExt) k bs p n,
  psbt0_deserialize bs = Ok p /\ psbt0_sign k p = Panic
  /\ psbt0_sighash_ecdsa p n (p0_unsigned_tx p) = Panic /\ psbt0_signing_algorithm p n = Panic.
Proof.
  set (p := ex0_of [ex0_wpkh; set_i0_non_witness_utxo (Some prev0) input0_default]).
  exists toy, toy_sign, toy_schnorr, ex0_keys, (psbt0_serialize p), p, 1. vm_compute. auto.
Qed.
Print Assumptions C48_sign_refuted.

Theorem C48_sighash_panic_iff : forall (X : Ext) (S : SignExt) p n t,
  n < blen (tx_input t) ->
  (psbt0_sighash_ecdsa p n t = Panic <-> exists s, spend_at p n s /\ vout_out_of_bounds s).
Proof. intros X S p n t. apply sighash0_panic. Qed.
Print Assumptions C48_sighash_panic_iff.

(** ** C81: the signatures that are made *)

Lemma sign0_at `{X : Ext} `{S : SignExt} `{T : SchnorrExt} k p p' used errs : psbt0_sign k p = Ok (p', used, errs) ->
  vouts_in_bounds p /\ used = flat_map (used_at k p) (input_indices0 p) /\ errs = flat_map (errs_at k p) (input_indices0 p)
  /\ same_but_signed0 p p'
  /\ forall n, n < blen (p0_inputs p) ->
     nth_error (p0_inputs p') (N.to_nat n) = match outcome0 k p n with Ok (i', _) => Some i' | _ => nth_error (p0_inputs p) (N.to_nat n) end.
Proof.
  intros H. split; [exact (sign0_bounds k p _ H)|]. pose proof (sign0_spec k p) as Hs. rewrite H in Hs.
  destruct Hs as (H1 & _ & H2 & H3 & H4). auto.
Qed.

Theorem C81_signed : forall (X : Ext) (S : SignExt) (T : SchnorrExt) k p p' used errs,
  psbt0_sign k p = Ok (p', used, errs) -> Forall sorted_origins (p0_inputs p) ->
  same_but_signed0 p p' /\
  forall n s, spend_at p n s ->
    exists i' r, nth_error (p0_inputs p') (N.to_nat n) = Some i' /\ signed0 k p n s i' r
      /\ (forall ks, In (n, ks) used <-> r = Some ks)
      /\ ((exists e, In (n, e) errs) <-> r = None).
Proof.
  intros X S T k p p' used errs H Hso. destruct (sign0_at k p p' used errs H) as (Hb & -> & -> & Hsame & Hn).
  split; [exact Hsame|]. intros n s Hs. pose proof (spend_at_lt _ _ _ Hs) as [Hlt _]. specialize (Hn n Hlt).
  destruct s as [t i]. pose proof Hs as Hs'. apply spend_at_iff in Hs' as [_ Hi].
  assert (Hsi : sorted_origins i) by (rewrite Forall_forall in Hso; apply Hso; eapply nth_error_In; exact Hi).
  pose proof (outcome0_result k p n (t, i) Hb Hs Hsi) as Hr. pose proof (used0_in k p n) as Hu. pose proof (errs0_in k p n) as He.
  destruct (outcome0 k p n) as [[i' ks]|e|]; [| |contradiction].
  - exists i', (Some ks). split; [exact Hn|]. split; [exact Hr|]. split.
    + intros ks'. rewrite Hu. split; [intros (_ & j & E); inj E; now injection E as _ ->|]. intros E. inj E. split; [exact Hlt|]. now exists i'.
    + split; [intros (e & E); apply He in E as [_ E]; discriminate|discriminate].
  - exists i, None. split; [now rewrite Hn|]. split; [exact Hr|]. split.
    + intros ks'. rewrite Hu. split; [intros (_ & j & E); discriminate|discriminate].
    + split; [reflexivity|]. intros _. exists e. apply He. auto.
Qed.
Print Assumptions C81_signed.

Lemma to_sign0_fun `{X : Ext} `{S : SignExt} p t n m ty m' ty' : n < blen (tx_input t) ->
  to_sign0 p t n m ty -> to_sign0 p t n m' ty' -> m = m' /\ ty = ty'.
Proof. intros Hn H H'. apply (sighash0_iff p n t m ty Hn) in H. apply (sighash0_iff p n t m' ty' Hn) in H'. rewrite H in H'. inj H'. now injection H'. Qed.
Lemma taproot_to_sign_fun `{X : Ext} `{T : SchnorrExt} p n leaf m ty m' ty' : vouts_in_bounds p ->
  taproot_to_sign p n leaf m ty -> taproot_to_sign p n leaf m' ty' -> m = m' /\ ty = ty'.
Proof.
  intros Hb H H'. apply (taproot0_iff p n leaf m ty Hb) in H. apply (taproot0_iff p n leaf m' ty' Hb) in H'. rewrite H in H'. inj H'. now injection H'.
Qed.
Lemma wanted_fun `{X : Ext} `{S : SignExt} k i x leaf sk leaf' sk' : sorted_origins i -> wanted k i leaf x sk -> wanted k i leaf' x sk' ->
  sk = sk' /\ (leaf = None <-> leaf' = None).
Proof.
  intros Hso H H'. destruct (origins_pre i Hso) as [_ Hg].
  assert (Hl : exists lhs src, m_get bkey x (i0_tap_key_origins i) = Some (lhs, src) /\ k (KRBip32 src) = inr (Some sk) /\ (leaf = None <-> lhs = [])).
  { destruct H as [x src sk H1 H2 H3 H4|x lhs src sk lh H1 H2 H3 H4]; apply Hg in H1; do 2 eexists; (split; [exact H1|]); (split; [exact H4|]);
      split; try reflexivity; try discriminate. intros ->. destruct H2. }
  assert (Hl' : exists lhs src, m_get bkey x (i0_tap_key_origins i) = Some (lhs, src) /\ k (KRBip32 src) = inr (Some sk') /\ (leaf' = None <-> lhs = [])).
  { destruct H' as [x src sk' H1 H2 H3 H4|x lhs src sk' lh H1 H2 H3 H4]; apply Hg in H1; do 2 eexists; (split; [exact H1|]); (split; [exact H4|]);
      split; try reflexivity; try discriminate. intros ->. destruct H2. }
  destruct Hl as (lhs & src & E1 & E2 & E3), Hl' as (lhs' & src' & E1' & E2' & E3'). rewrite E1 in E1'. injection E1' as <- <-. rewrite E2 in E2'.
  injection E2' as <-. split; [reflexivity|tauto].
Qed.
Lemma taproot_keys_fun `{X : Ext} `{S : SignExt} k i l xs ys : sorted_origins i -> taproot_keys k i l xs -> taproot_keys k i l ys -> xs = ys.
Proof.
  intros Hso H. revert ys. induction H as [|x o l r sk Hw H IH|x o l r lh sk Hw H IH|x o l r Hw H IH]; intros ys Hy;
    inversion Hy as [|x' o' l' r' sk' Hw' Hy'|x' o' l' r' lh' sk' Hw' Hy'|x' o' l' r' Hw' Hy']; subst; auto.
  - f_equal. auto.
  - destruct (wanted_fun k i x _ _ _ _ Hso Hw Hw') as [_ [E _]]. discriminate (E eq_refl).
  - destruct (Hw' _ _ Hw).
  - destruct (wanted_fun k i x _ _ _ _ Hso Hw Hw') as [_ [_ E]]. discriminate (E eq_refl).
  - destruct (wanted_fun k i x _ _ _ _ Hso Hw Hw') as [-> _]. f_equal. auto.
  - destruct (Hw' _ _ Hw).
  - destruct (Hw _ _ Hw').
  - destruct (Hw _ _ Hw').
Qed.
Lemma sigs_after_fun `{S : SignExt} sks m ty old a b : sigs_after sks m ty old a -> sigs_after sks m ty old b -> forall pk, m_get sk_pubkey pk a = m_get sk_pubkey pk b.
Proof.
  intros Ha Hb pk. destruct (m_get sk_pubkey pk a) as [s|] eqn:E.
  - apply Ha, Hb in E. now rewrite E.
  - destruct (m_get sk_pubkey pk b) as [s|] eqn:E'; [|reflexivity]. apply Hb, Ha in E'. congruence.
Qed.
Lemma some_iff_eq {A} (a b : option A) : (forall g, a = Some g <-> b = Some g) -> a = b.
Proof. intros H. destruct a as [x|]; [symmetry; now apply H|]. destruct b as [y|]; [|reflexivity]. now apply H. Qed.

(** The specification leaves no choice: inputs and reports that meet it have the same
    signatures. *)
Theorem C81_unique : forall (X : Ext) (S : SignExt) (T : SchnorrExt) k p n s i r i' r',
  vouts_in_bounds p -> spend_at p n s -> sorted_origins (snd s) ->
  signed0 k p n s i r -> signed0 k p n s i' r' ->
  r = r' /\ i0_tap_key_sig i = i0_tap_key_sig i'
  /\ (forall pk, m_get sk_pubkey pk (i0_partial_sigs i) = m_get sk_pubkey pk (i0_partial_sigs i'))
  /\ (forall xl, m_get sk_xleaf xl (i0_tap_script_sigs i) = m_get sk_xleaf xl (i0_tap_script_sigs i'))
  /\ same_but_sigs0 (snd s) i /\ same_but_sigs0 (snd s) i'.
Proof.
  intros X S T k p n s i r i' r' Hb Hs Hso H H'. pose proof (spend_at_lt _ _ _ Hs) as [_ Hn].
  assert (Hps : forall j l, i0_partial_sigs (set_i0_partial_sigs l j) = l) by reflexivity.
  assert (Hpt : forall j l, i0_tap_key_sig (set_i0_partial_sigs l j) = i0_tap_key_sig j) by reflexivity.
  assert (Hpl : forall j l, i0_tap_script_sigs (set_i0_partial_sigs l j) = i0_tap_script_sigs j) by reflexivity.
  assert (Hput : forall j l, same_but_sigs0 j (set_i0_partial_sigs l j)) by (intros j l; unfold same_but_sigs0; now destruct j).
  assert (Hkeys : forall a b, keys_for k (i0_bip32_derivation (snd s)) a -> keys_for k (i0_bip32_derivation (snd s)) b -> a = b).
  { intros a b Ha Hb'. apply found_iff in Ha, Hb'. congruence. }
  assert (Hnone : forall m ty new, sigs_after [] m ty (i0_partial_sigs (snd s)) new ->
     forall pk, m_get sk_pubkey pk new = m_get sk_pubkey pk (i0_partial_sigs (snd s))).
  { intros m ty new Hnew pk. apply some_iff_eq. intros g. rewrite (Hnew pk g). split; [intros [(l1 & sk & l2 & E & _)|[_ E]]; [now destruct l1|exact E]|].
    intros E. right. split; [intros []|exact E]. }
  pose proof (same_sigs0_refl (snd s)) as Hrefl.
  destruct H as [sks m ty new He Hk Hm Hnew|He Hk|sks He Hk Hne Hm|j xs Ht Hall Hj Hxs|leaf x sk Ht Hw Hm|He Ht];
  destruct H' as [sks' m' ty' new' He' Hk' Hm' Hnew'|He' Hk'|sks' He' Hk' Hne' Hm'|j' xs' Ht' Hall' Hj' Hxs'|leaf' x' sk' Ht' Hw' Hm'|He' Ht'];
  try (exfalso; eapply ecdsa_not_taproot; eassumption); try contradiction;
  try (pose proof (Hkeys _ _ Hk Hk') as Ek; first [subst sks'|subst sks|idtac]); rewrite ?Hps, ?Hpt, ?Hpl.
  - destruct (to_sign0_fun p _ n m ty m' ty' Hn Hm Hm') as [-> ->]. split; [reflexivity|]. split; [reflexivity|].
    split; [eapply sigs_after_fun; eassumption|]. auto.
  - split; [reflexivity|]. split; [reflexivity|]. split; [eapply Hnone; eassumption|]. auto.
  - destruct (Hm' _ _ Hm).
  - split; [reflexivity|]. split; [reflexivity|]. split; [intros pk; symmetry; eapply Hnone; eassumption|]. auto.
  - auto 7.
  - congruence.
  - destruct (Hm _ _ Hm').
  - congruence.
  - auto 7.
  - rewrite (taproot_keys_fun k (snd s) _ xs xs' Hso Hxs Hxs'). destruct Hj as [R1 R2 R3], Hj' as [Q1 Q2 Q3].
    assert (Hsame : forall a, a = set_i0_tap_script_sigs (i0_tap_script_sigs a) (set_i0_tap_key_sig (i0_tap_key_sig a) (snd s)) ->
       i0_partial_sigs a = i0_partial_sigs (snd s) /\ same_but_sigs0 (snd s) a).
    { intros a Ea. assert (Ep : i0_partial_sigs a = i0_partial_sigs (snd s)) by (rewrite Ea; reflexivity). split; [exact Ep|].
      unfold same_but_sigs0. rewrite Ep. rewrite Ea at 1. now destruct (snd s). }
    destruct (Hsame j R1) as [P1 S1]. destruct (Hsame j' Q1) as [P2 S2].
    split; [reflexivity|]. split; [|split; [intros pk; now rewrite P1, P2|split; [|auto]]].
    + apply some_iff_eq. intros g. now rewrite R2, Q2.
    + intros [x lh]. apply some_iff_eq. intros g. now rewrite R3, Q3.
  - destruct (Hall _ _ _ Hw') as (m & ty & Hm). destruct (Hm' _ _ Hm).
  - destruct (Hall' _ _ _ Hw) as (m & ty & Hm'). destruct (Hm _ _ Hm').
  - auto 7.
  - auto 7.
Qed.
Print Assumptions C81_unique.

(** Six inputs: four with ECDSA, two keys each, and one with taproot, one key for the key path and
    one for two leaves. *)
Example C81_example : Forall sorted_origins (p0_inputs ex0_all)
  /\ then_holds (psbt0_sign ex0_keys ex0_all) (fun r =>
       snd r = [] /\ map fst (snd (fst r)) = [0; 1; 2; 3; 4; 5]
       /\ nth_error (snd (fst r)) 3 = Some (3, KeysSchnorr [ex0_xo 4; ex0_xo 3])
       /\ map (fun i => (blen (i0_partial_sigs i), blen (i0_tap_script_sigs i), is_some (i0_tap_key_sig i))) (p0_inputs (fst (fst r)))
          = [(2, 0, false); (2, 0, false); (2, 0, false); (0, 2, true); (2, 0, false); (2, 0, false)])
  /\ then_holds (psbt0_sign ex0_keys (ex0_of [ex0_wpkh; input0_default; set_i0_sighash_type (Some 7) ex0_tr])) (fun r =>
       snd r = [(1, S0MissingSpendUtxo); (2, S0InvalidSighashType)]
       /\ map (fun i => (blen (i0_partial_sigs i), is_some (i0_tap_key_sig i))) (p0_inputs (fst (fst r)))
          = [(2, false); (0, false); (0, false)]).
Proof. split; [exact (proj2 (wf_signable _ ex0_all_wf))|]. vm_compute. repeat split. Qed.

(** ** C82: the errors that are reported *)

Theorem C82_errors : forall (X : Ext) (S : SignExt) (T : SchnorrExt) k p p' used errs,
  psbt0_sign k p = Ok (p', used, errs) -> one_map_per_input p -> Forall sorted_origins (p0_inputs p) ->
  forall n e, In (n, e) errs <-> exists s, spend_at p n s /\ sign_error0 k p n s e.
Proof.
  intros X S T k p p' used errs H Hone Hso n e. destruct (sign0_at k p p' used errs H) as (Hb & -> & -> & _). rewrite errs0_in.
  assert (Hsi : forall s, spend_at p n s -> sorted_origins (snd s)).
  { intros [t i] Hs. apply spend_at_iff in Hs as [_ Hi]. rewrite Forall_forall in Hso. apply Hso. eapply nth_error_In; exact Hi. }
  split.
  - intros [Hlt E]. destruct (spend_at_ex p n Hlt) as [s Hs]. { unfold one_map_per_input in Hone. unfold blen in *. lia. }
    exists s. split; [exact Hs|]. now apply (outcome0_error k p n s e Hb Hone Hs (Hsi s Hs)).
  - intros (s & Hs & He). split; [now apply spend_at_lt in Hs|]. now apply (outcome0_error k p n s e Hb Hone Hs (Hsi s Hs)).
Qed.
Print Assumptions C82_errors.

Example C82_example :
  let p := ex0_of [ex0_wpkh; input0_default; set_i0_sighash_type (Some 7) ex0_tr; set_i0_redeem_script None ex0_sh;
                   set_i0_witness_script None ex0_wsh; set_i0_bip32_derivation [] (set_i0_witness_script None ex0_wsh)] in
  one_map_per_input p /\ Forall sorted_origins (p0_inputs p)
  /\ then_holds (psbt0_sign ex0_keys p) (fun r =>
       snd r = [(1, S0MissingSpendUtxo); (2, S0InvalidSighashType); (3, S0MissingRedeemScript); (4, S0MissingWitnessScript)]).
Proof.
  intros p. assert (Hw : wf_psbt0 p) by (apply ex0_wf; vm_compute; reflexivity).
  destruct (wf_signable _ Hw) as [H1 H2]. split; [exact H1|]. split; [exact H2|]. vm_compute. reflexivity.
Qed.

(** ** C85: each input is reported once *)

Theorem C85_partition : forall (X : Ext) (S : SignExt) (T : SchnorrExt) k p p' used errs,
  psbt0_sign k p = Ok (p', used, errs) ->
  StronglySorted N.lt (map fst used) /\ StronglySorted N.lt (map fst errs)
  /\ (forall n, In n (map fst used) -> ~ In n (map fst errs))
  /\ (forall n, n < blen (p0_inputs p) <-> In n (map fst used) \/ In n (map fst errs)).
Proof.
  intros X S T k p p' used errs H. pose proof (sign0_spec k p) as Hsp. rewrite H in Hsp. destruct Hsp as (_ & Hnp & _ & -> & ->).
  split; [apply used0_sorted|]. split; [apply errs0_sorted|].
  assert (Hu : forall n, In n (map fst (flat_map (used_at k p) (input_indices0 p))) <-> n < blen (p0_inputs p) /\ exists x, outcome0 k p n = Ok x).
  { intros n. rewrite in_map_iff. split.
    - intros ([a ks] & <- & Hin). apply used0_in in Hin as [Hlt (i' & E)]. eauto.
    - intros [Hlt ([i' ks] & E)]. exists (n, ks). split; [reflexivity|]. apply used0_in. eauto. }
  assert (He : forall n, In n (map fst (flat_map (errs_at k p) (input_indices0 p))) <-> n < blen (p0_inputs p) /\ exists e, outcome0 k p n = Err e).
  { intros n. rewrite in_map_iff. split.
    - intros ([a e] & <- & Hin). apply errs0_in in Hin as [Hlt E]. eauto.
    - intros [Hlt (e & E)]. exists (n, e). split; [reflexivity|]. apply errs0_in. auto. }
  split.
  - intros n H1 H2. apply Hu in H1 as (_ & x & E1). apply He in H2 as (_ & e & E2). congruence.
  - intros n. rewrite Hu, He. split; [|tauto]. intros Hlt. specialize (Hnp n Hlt). destruct (outcome0 k p n) as [x|e|]; [left|right|congruence]; eauto.
Qed.
Print Assumptions C85_partition.

Example C85_example : then_holds (psbt0_sign ex0_keys (ex0_of [ex0_wpkh; input0_default; ex0_wsh])) (fun r =>
  map fst (snd (fst r)) = [0; 2] /\ map fst (snd r) = [1]).
Proof. vm_compute. auto. Qed.

(** ** C83: taproot signatures verify *)

(** A signature made for the key path verifies under the output key of the signer's key and the
    merkle root of the input, one for a leaf under the signer's key. *)
Theorem C83_verifies : forall (X : Ext) (S : SignExt) (T : SchnorrExt) (LT : SchnorrLaws S T) k p p' used errs n s i',
  psbt0_sign k p = Ok (p', used, errs) -> Forall sorted_origins (p0_inputs p) ->
  spend_at p n s -> nth_error (p0_inputs p') (N.to_nat n) = Some i' ->
  (forall g, i0_tap_key_sig i' = Some g -> i0_tap_key_sig (snd s) <> Some g ->
     exists x sk m, wanted k (snd s) None x sk /\ taproot_to_sign p n None m (ts_type g)
       /\ verify_schnorr (output_key (x_public sk) (i0_tap_merkle_root (snd s))) m (ts_sig g) = true)
  /\ (forall x lh g, m_get sk_xleaf (x, lh) (i0_tap_script_sigs i') = Some g -> m_get sk_xleaf (x, lh) (i0_tap_script_sigs (snd s)) <> Some g ->
     exists sk m, wanted k (snd s) (Some lh) x sk /\ taproot_to_sign p n (Some lh) m (ts_type g)
       /\ verify_schnorr (x_public sk) m (ts_sig g) = true).
Proof.
  intros X S T LT k p p' used errs n s i' H Hso Hs Hi'. destruct (C81_signed X S T k p p' used errs H Hso) as (_ & Hall).
  destruct (Hall n s Hs) as (i'' & r & Hi'' & Hsig & _). rewrite Hi' in Hi''. injection Hi'' as <-.
  assert (Hsame : forall l, set_i0_partial_sigs l (snd s) = i' ->
     i0_tap_key_sig i' = i0_tap_key_sig (snd s) /\ i0_tap_script_sigs i' = i0_tap_script_sigs (snd s)) by (intros l <-; auto).
  destruct Hsig as [sks m ty new He Hk Hm Hnew|He Hk|sks He Hk Hne Hm|j xs Ht Hw [_ R2 R3] Hxs|leaf x sk Ht Hw Hm|He Ht].
  - destruct (Hsame new eq_refl) as [-> ->]. split; congruence.
  - split; congruence.
  - split; congruence.
  - split.
    + intros g Hg Hne. apply R2 in Hg as [Hg|(x & sk & m & ty & Hwant & Hm & ->)]; [contradiction|]. exists x, sk, m. split; [exact Hwant|].
      split; [exact Hm|]. cbn [ts_sig]. unfold x_public. rewrite <- tweak_secret_key. apply sign_schnorr_verifies.
    + intros x lh g Hg Hne. apply R3 in Hg as [Hg|(sk & m & ty & Hwant & Hm & ->)]; [contradiction|]. exists sk, m. split; [exact Hwant|].
      split; [exact Hm|]. apply sign_schnorr_verifies.
  - split; congruence.
  - split; congruence.
Qed.
Print Assumptions C83_verifies.

(** If the provider returns the keys that are asked for and the output key is that of internal
    key and merkle root, then the key path signature is valid for the output, and the signatures
    for leaves are valid for the listed keys. *)
Theorem C83_valid_partial : forall (X : Ext) (S : SignExt) (T : SchnorrExt) (LT : SchnorrLaws S T) k p p' used errs n s i' u key,
  psbt0_sign k p = Ok (p', used, errs) -> Forall sorted_origins (p0_inputs p) ->
  spend_at p n s -> nth_error (p0_inputs p') (N.to_nat n) = Some i' ->
  (forall leaf x sk, wanted k (snd s) leaf x sk -> x_public sk = x) ->
  funds0 s u -> p2tr_key (to_script u) key ->
  (forall x, i0_tap_internal_key (snd s) = Some x -> output_key x (i0_tap_merkle_root (snd s)) = key) ->
  (forall g, i0_tap_key_sig i' = Some g -> i0_tap_key_sig (snd s) <> Some g ->
     exists m, taproot_to_sign p n None m (ts_type g) /\ verify_schnorr key m (ts_sig g) = true)
  /\ (forall x lh g, m_get sk_xleaf (x, lh) (i0_tap_script_sigs i') = Some g -> m_get sk_xleaf (x, lh) (i0_tap_script_sigs (snd s)) <> Some g ->
     exists m, taproot_to_sign p n (Some lh) m (ts_type g) /\ verify_schnorr x m (ts_sig g) = true).
Proof.
  intros X S T LT k p p' used errs n s i' u key H Hso Hs Hi' Hhon Hu Hkey Hint.
  destruct (C83_verifies X S T LT k p p' used errs n s i' H Hso Hs Hi') as [H1 H2]. split.
  - intros g Hg Hne. destruct (H1 g Hg Hne) as (x & sk & m & Hw & Hm & Hv). exists m. split; [exact Hm|].
    rewrite (Hhon _ _ _ Hw) in Hv. inversion Hw as [x0 src sk0 W1 W2 W3 W4 E1 E2 E3|]; subst. now rewrite (Hint x W2) in Hv.
  - intros x lh g Hg Hne. destruct (H2 x lh g Hg Hne) as (sk & m & Hw & Hm & Hv). exists m. split; [exact Hm|].
    now rewrite (Hhon _ _ _ Hw) in Hv.
Qed.
Print Assumptions C83_valid_partial.

(** The output key is not compared: for an output with another key a signature is made that is
    not valid for it. *)
Theorem C83_output_key_refuted : exists (X : Ext) (S : SignExt) (T : SchnorrExt) k p p' used i' g key,
  psbt0_sign k p = Ok (p', used, []) /\ one_map_per_input p
  /\ nth_error (p0_inputs p') 0 = Some i' /\ i0_tap_key_sig i' = Some g
  /\ (exists s u, spend_at p 0 s /\ funds0 s u /\ p2tr_key (to_script u) key)
  /\ forall m ty, taproot_to_sign p 0 None m ty -> verify_schnorr key m (ts_sig g) = false.
Proof.
  set (u := TxOut 5000 (program_script 1 (repeat x44 32))).
  set (p := ex0_of [set_i0_witness_utxo (Some u) ex0_tr]).
  exists toy, toy_sign, toy_schnorr, ex0_keys, p. do 4 eexists. exists (repeat x44 32).
  split; [vm_compute; reflexivity|]. split; [reflexivity|]. split; [vm_compute; reflexivity|]. split; [vm_compute; reflexivity|]. split.
  - exists (TxIn txid_a 0 [] 4294967295 [], set_i0_witness_utxo (Some u) ex0_tr), u. split; [reflexivity|]. split; [now left|].
    split; [|reflexivity]. split; [reflexivity|]. vm_compute. split; [discriminate|]. split; discriminate.
  - intros m ty Hm. apply (taproot0_iff p 0 None m ty) in Hm.
    2:{ repeat constructor. intros [Hn _]. discriminate. }
    vm_compute in Hm. injection Hm as <- <-. vm_compute. reflexivity.
Qed.
Print Assumptions C83_output_key_refuted.

(** The key that the provider returns is not compared with the one listed: the signature is
    stored under a key that did not make it. *)
Theorem C83_listed_key_refuted : exists (X : Ext) (S : SignExt) (T : SchnorrExt) x0 p p' used i' x lh g,
  psbt0_sign (xprv_get_key x0) p = Ok (p', used, []) /\ one_map_per_input p
  /\ nth_error (p0_inputs p') 0 = Some i' /\ m_get sk_xleaf (x, lh) (i0_tap_script_sigs i') = Some g
  /\ forall m ty, taproot_to_sign p 0 (Some lh) m ty -> verify_schnorr x m (ts_sig g) = false.
Proof.
  set (p := ex0_of [set_i0_tap_key_origins [(ex0_xo 9, ([ex0_leaf xa1], ex0_src 4))] ex0_tr]).
  exists toy, toy_sign, toy_schnorr, ex0_x, p. do 3 eexists. exists (ex0_xo 9), (ex0_leaf xa1). eexists.
  split; [vm_compute; reflexivity|]. split; [reflexivity|]. split; [vm_compute; reflexivity|]. split; [vm_compute; reflexivity|].
  intros m ty Hm. apply (taproot0_iff p 0 (Some (ex0_leaf xa1)) m ty) in Hm.
  2:{ repeat constructor. intros [Hn _]. discriminate. }
  vm_compute in Hm. injection Hm as <- <-. vm_compute. reflexivity.
Qed.
Print Assumptions C83_listed_key_refuted.

Definition verifies_at (p : psbt0) (n : N) (leaf : option bytes) (key : bytes) (g : option tsig) : bool :=
  match psbt0_sighash_taproot p n (p0_unsigned_tx p) leaf, g with Ok (m, _), Some g => verify_schnorr key m (ts_sig g) | _, _ => false end.
Example C83_example : then_holds (psbt0_sign ex0_keys ex0_all) (fun r =>
  match nth_error (p0_inputs (fst (fst r))) 3 with
  | Some i =>
      verifies_at ex0_all 3 None (output_key (ex0_xo 3) (Some ex0_root)) (i0_tap_key_sig i) = true
      /\ verifies_at ex0_all 3 (Some (ex0_leaf xa1)) (ex0_xo 4) (m_get sk_xleaf (ex0_xo 4, ex0_leaf xa1) (i0_tap_script_sigs i)) = true
      /\ verifies_at ex0_all 3 (Some (ex0_leaf xa2)) (ex0_xo 4) (m_get sk_xleaf (ex0_xo 4, ex0_leaf xa2) (i0_tap_script_sigs i)) = true
  | None => False
  end).
Proof. vm_compute. auto. Qed.

(** ** C84: signatures that are there already *)

Theorem C84_kept : forall (X : Ext) (S : SignExt) (T : SchnorrExt) k p p' used errs n s i',
  psbt0_sign k p = Ok (p', used, errs) -> Forall sorted_origins (p0_inputs p) ->
  spend_at p n s -> nth_error (p0_inputs p') (N.to_nat n) = Some i' ->
  (forall g, i0_tap_key_sig (snd s) = Some g -> i0_tap_key_sig i' = Some g)
  /\ (forall xl g, m_get sk_xleaf xl (i0_tap_script_sigs (snd s)) = Some g -> m_get sk_xleaf xl (i0_tap_script_sigs i') = Some g)
  /\ (forall pk g, m_get sk_pubkey pk (i0_partial_sigs (snd s)) = Some g ->
        m_get sk_pubkey pk (i0_partial_sigs i') = Some g
        \/ exists ks, In (n, KeysEcdsa ks) used /\ In pk ks
             /\ exists sk m ty, public_of sk = pk /\ to_sign0 p (p0_unsigned_tx p) n m ty
                  /\ m_get sk_pubkey pk (i0_partial_sigs i') = Some (ESig (sign_ecdsa m (pv_secret sk)) ty)).
Proof.
  intros X S T k p p' used errs n s i' H Hso Hs Hi'. destruct (C81_signed X S T k p p' used errs H Hso) as (_ & Hall).
  destruct (Hall n s Hs) as (i'' & r & Hi'' & Hsig & Hused & _). rewrite Hi' in Hi''. injection Hi'' as <-.
  assert (Hsame : forall l, set_i0_partial_sigs l (snd s) = i' -> i0_tap_key_sig i' = i0_tap_key_sig (snd s)
     /\ i0_tap_script_sigs i' = i0_tap_script_sigs (snd s) /\ i0_partial_sigs i' = l) by (intros l <-; auto).
  destruct Hsig as [sks m ty new He Hk Hm Hnew|He Hk|sks He Hk Hne Hm|j xs Ht Hw [R1 R2 R3] Hxs|leaf x sk Ht Hw Hm|He Ht]; auto 6.
  - destruct (Hsame new eq_refl) as (-> & -> & ->). split; [auto|]. split; [auto|]. intros pk g Hg.
    destruct (in_dec pubkey_eq_dec pk (map public_of sks)) as [Hin|Hnin].
    + right. exists (map public_of sks). split; [now apply Hused|]. split; [exact Hin|].
      destruct (signature_ex sks m ty pk Hin) as (g' & Hg'). pose proof Hg' as (l1 & sk & l2 & E1 & E2 & E3 & E4).
      exists sk, m, ty. split; [exact E2|]. split; [exact Hm|]. apply Hnew. left. now rewrite <- E4.
    + left. apply Hnew. right. auto.
  - split; [|split].
    + intros g Hg. apply R2. auto.
    + intros [x lh] g Hg. apply R3. auto.
    + intros pk g Hg. left. rewrite R1. exact Hg.
Qed.
Print Assumptions C84_kept.

Example C84_example :
  let old := ESig (toy_sig [] []) 1 in
  let g := TSig (repeat x07 64) 0 in
  let p := ex0_of [set_i0_partial_sigs [(PubKey true (ex0_pk 1), old); (PubKey true (ex0_pk 9), old)] ex0_wpkh;
                   set_i0_tap_script_sigs [((ex0_xo 4, ex0_leaf xa1), g)] (set_i0_tap_key_sig (Some g) ex0_tr)] in
  then_holds (psbt0_sign ex0_keys p) (fun r =>
    match p0_inputs (fst (fst r)) with
    | [i; j] =>
        m_get sk_pubkey (PubKey true (ex0_pk 9)) (i0_partial_sigs i) = Some old
        /\ is_some (m_get sk_pubkey (PubKey true (ex0_pk 1)) (i0_partial_sigs i)) = true
        /\ i0_tap_key_sig j = Some g /\ m_get sk_xleaf (ex0_xo 4, ex0_leaf xa1) (i0_tap_script_sigs j) = Some g
        /\ blen (i0_tap_script_sigs j) = 2
    | _ => False
    end).
Proof. vm_compute. repeat split. Qed.

(** ** C86: a map from public to private keys as provider *)

(** For an input that is signed with ECDSA every listed key that the map has is used. *)
Theorem C86_map_ecdsa_partial : forall (X : Ext) (S : SignExt) (T : SchnorrExt) m p p' used errs n s pk src sk,
  psbt0_sign (map_get_key m) p = Ok (p', used, errs) -> Forall sorted_origins (p0_inputs p) ->
  spend_at p n s -> spends_ecdsa s -> In (pk, src) (i0_bip32_derivation (snd s)) ->
  m_get sk_pubkey (PubKey true pk) m = Some sk ->
  (exists ks, In (n, KeysEcdsa ks) used /\ In (public_of sk) ks) \/ (exists e, In (n, e) errs /\ ecdsa_error s e).
Proof.
  intros X S T m p p' used errs n s pk src sk H Hso Hs He Hin Hm. destruct (C81_signed X S T _ p p' used errs H Hso) as (_ & Hall).
  destruct (Hall n s Hs) as (i' & r & Hi' & Hsig & Hused & Herr).
  assert (Hkey : forall sks, keys_for (map_get_key m) (i0_bip32_derivation (snd s)) sks -> In (public_of sk) (map public_of sks)).
  { intros sks Hk. revert Hin. induction Hk as [|pk' src' l sk' sks Hh Hk IH|pk' src' l sks Hh Hk IH]; [intros []| |].
    - intros [E|E]; [|right; auto]. injection E as -> ->. left. destruct Hh as [Hh|[_ Hh]]; [discriminate|].
      unfold map_get_key in Hh. f_equal. congruence.
    - intros [E|E]; [|auto]. injection E as -> ->. exfalso. apply (Hh sk). right. split; [discriminate|]. unfold map_get_key. now rewrite Hm. }
  destruct (sign0_at _ p p' used errs H) as (Hb & Eu & Ee & _).
  destruct Hsig as [sks d ty new He' Hk Hd Hnew|He' Hk|sks He' Hk Hne Hd|j xs Ht Hw Hj Hxs|leaf x sk' Ht Hw Hd|He' Ht].
  - left. exists (map public_of sks). split; [now apply Hused|now apply Hkey].
  - destruct (Hkey _ Hk).
  - right. destruct (proj2 Herr eq_refl) as (e & Hine). exists e. split; [exact Hine|]. rewrite Ee in Hine. apply errs0_in in Hine as [_ E].
    rewrite (outcome0_ecdsa _ p n s Hs (in_bounds_at p n s Hb Hs) He) in E. apply (sighash0_error p n s Hs He).
    destruct (psbt0_sighash_ecdsa p n (p0_unsigned_tx p)) as [[a b]|e'|]; [discriminate| |discriminate].
    destruct (is_empty _); [discriminate|]. injection E as ->. reflexivity.
  - destruct (ecdsa_not_taproot s He Ht).
  - destruct (ecdsa_not_taproot s He Ht).
  - contradiction.
Qed.
Print Assumptions C86_map_ecdsa_partial.

(** A taproot input is never signed: the only request is for the derivation path, which a map
    does not support; no error is reported. *)
Theorem C86_map_taproot : forall (X : Ext) (S : SignExt) (T : SchnorrExt) m p p' used errs n s,
  psbt0_sign (map_get_key m) p = Ok (p', used, errs) -> Forall sorted_origins (p0_inputs p) ->
  spend_at p n s -> spends_taproot s ->
  nth_error (p0_inputs p') (N.to_nat n) = Some (snd s) /\ In (n, KeysSchnorr []) used.
Proof.
  intros X S T m p p' used errs n s H Hso Hs Ht. destruct (sign0_at _ p p' used errs H) as (Hb & -> & -> & _ & Hn).
  pose proof (spend_at_lt _ _ _ Hs) as [Hlt _].
  assert (E : outcome0 (map_get_key m) p n = Ok (snd s, KeysSchnorr [])).
  { rewrite (outcome0_taproot _ p n s Hs Ht). destruct s as [t i]. pose proof Hs as Hs'. apply spend_at_iff in Hs' as [_ Hi]. cbn [snd].
    assert (Hsi : sorted_origins i) by (rewrite Forall_forall in Hso; apply Hso; eapply nth_error_In; exact Hi).
    destruct (origins_pre i Hsi) as [Hnd Hg]. rewrite (nothing_wanted (map_get_key m) i (i0_tap_key_origins i) [] _ Hnd Hg); [reflexivity|].
    intros leaf x sk Hw. destruct Hw as [x src sk W1 W2 W3 W4|x lhs src sk lh W1 W2 W3 W4]; discriminate. }
  specialize (Hn n Hlt). rewrite E in Hn. split; [exact Hn|]. apply used0_in. split; [exact Hlt|]. eauto.
Qed.
Print Assumptions C86_map_taproot.

Theorem C86_refuted : exists (X : Ext) (S : SignExt) (T : SchnorrExt) m p p' used x sk,
  psbt0_sign (map_get_key m) p = Ok (p', used, []) /\ one_map_per_input p
  /\ (exists s, spend_at p 0 s /\ spends_taproot s /\ i0_tap_internal_key (snd s) = Some x)
  /\ In (public_of sk, sk) m /\ xonly_of (pub_inner (public_of sk)) = x
  /\ p' = p.
Proof.
  exists toy, toy_sign, toy_schnorr, [(PubKey true (ex0_pk 3), ex0_sk 3)], (ex0_of [ex0_tr]). do 2 eexists. exists (ex0_xo 3), (ex0_sk 3).
  split; [vm_compute; reflexivity|]. split; [reflexivity|]. split; [|split; [now left|split; vm_compute; reflexivity]].
  exists (TxIn txid_a 0 [] 4294967295 [], ex0_tr). split; [reflexivity|]. split; [|reflexivity].
  exists (TxOut 5000 (program_script 1 (output_key (ex0_xo 3) (Some ex0_root)))), (output_key (ex0_xo 3) (Some ex0_root)).
  split; [now left|]. split; [|reflexivity]. split; [reflexivity|]. vm_compute. split; [discriminate|]. split; discriminate.
Qed.
Print Assumptions C86_refuted.

Example C86_example :
  then_holds (psbt0_sign (map_get_key [(PubKey true (ex0_pk 1), ex0_sk 1)]) (ex0_of [ex0_wpkh; ex0_tr])) (fun r =>
    snd (fst r) = [(0, KeysEcdsa [PubKey true (ex0_pk 1)]); (1, KeysSchnorr [])] /\ snd r = []).
Proof. vm_compute. auto. Qed.

(** ** C60: the result is well-formed *)

Theorem C60_v0_wf : forall (X : Ext) (S : SignExt) (T : SchnorrExt) (LS : SignLaws X S) (LT : SchnorrLaws S T) k p p' used errs,
  psbt0_sign k p = Ok (p', used, errs) -> wf_psbt0 p -> wf_psbt0 p'.
Proof. intros X S T LS LT k p p' used errs. exact (sign0_wf k LS LT p p' used errs). Qed.
Print Assumptions C60_v0_wf.

Example C60_v0_example : wf_psbt0 ex0_all
  /\ then_holds (psbt0_sign ex0_keys ex0_all) (fun r => psbt0_deserialize (psbt0_serialize (fst (fst r))) = Ok (fst (fst r))).
Proof. split; [exact ex0_all_wf|]. vm_compute. reflexivity. Qed.

(** ** C61: signing again *)

(** The second time the PSBT does not change and the errors are the same; no taproot keys are
    reported because there is nothing left to sign for them. *)
Theorem C61_v0_again_partial : forall (X : Ext) (S : SignExt) (T : SchnorrExt) k p p' used errs,
  psbt0_sign k p = Ok (p', used, errs) -> wf_psbt0 p ->
  exists used', psbt0_sign k p' = Ok (p', used', errs)
    /\ (forall n ks, In (n, KeysEcdsa ks) used' <-> In (n, KeysEcdsa ks) used)
    /\ (forall n xs, In (n, KeysSchnorr xs) used' <-> xs = [] /\ exists ys, In (n, KeysSchnorr ys) used).
Proof.
  intros X S T k p p' used errs H Hw. exists (map (fun x => (fst x, again (snd x))) used).
  split; [|split].
  - apply (sign0_again k p p' used errs H (wp0_input_count _ Hw)). eapply Forall_impl; [|exact (wp0_inputs _ Hw)].
    intros i Hi. split; [exact (proj1 (wi0_partial_sigs _ Hi))|exact (proj1 (wi0_tap_key_origins _ Hi))].
  - intros n ks. rewrite in_map_iff. split.
    + intros ([a [l|l]] & E & Hin); cbn [fst snd again] in E; [|discriminate]. now injection E as -> ->.
    + intros Hin. now exists (n, KeysEcdsa ks).
  - intros n xs. rewrite in_map_iff. split.
    + intros ([a [l|l]] & E & Hin); cbn [fst snd again] in E; [discriminate|]. injection E as -> <-. eauto.
    + intros (-> & ys & Hin). now exists (n, KeysSchnorr ys).
Qed.
Print Assumptions C61_v0_again_partial.

Theorem C61_v0_refuted : exists (X : Ext) (S : SignExt) (T : SchnorrExt) k p p' used used',
  wf_psbt0 p /\ psbt0_sign k p = Ok (p', used, []) /\ psbt0_sign k p' = Ok (p', used', []) /\ used' <> used.
Proof.
  exists toy, toy_sign, toy_schnorr, ex0_keys, ex0_all. do 3 eexists. split; [exact ex0_all_wf|]. split; [vm_compute; reflexivity|].
  split; [vm_compute; reflexivity|]. discriminate.
Qed.
Print Assumptions C61_v0_refuted.

(** ** C63: what the signer checks *)

(** Signing does not call the checks: the transaction given has another txid than the one spent
    and the scripts are not those of the output. *)
Theorem C63_v0_refuted : exists (X : Ext) (S : SignExt) (T : SchnorrExt) k p p' used,
  wf_psbt0 p /\ psbt0_sign k p = Ok (p', used, []) /\ ~ Forall txid_matches (spends p) /\ ~ Forall redeem_matches (spends p)
  /\ ~ Forall witness_matches (spends p)
  /\ Forall (fun i => i0_partial_sigs i = []) (p0_inputs p) /\ Forall (fun i => i0_partial_sigs i <> []) (p0_inputs p').
Proof.
  set (prev := Tx 2 0 [TxIn txid_b 7 [] 0 []] [TxOut 5000 (program_script 0 (repeat x11 20))]).
  set (i := set_i0_non_witness_utxo (Some prev) (set_i0_witness_utxo None ex0_wpkh)).
  exists toy, toy_sign, toy_schnorr, ex0_keys, (ex0_of [i; ex0_shwsh]). do 2 eexists.
  split; [apply ex0_wf; vm_compute; reflexivity|]. split; [vm_compute; reflexivity|]. split; [|split; [|split; [|split]]].
  - intros H. pose proof (Forall_inv H prev eq_refl) as H1. vm_compute in H1. discriminate.
  - intros H. pose proof (Forall_inv (Forall_inv_tail H)) as H3.
    destruct (H3 (program_script 0 (repeat x66 32)) eq_refl) as (u & [E|[E _]] & Hu); cbn [snd] in E; [|discriminate].
    vm_compute in E. injection E as <-. vm_compute in Hu. discriminate.
  - intros H. pose proof (Forall_inv (Forall_inv_tail H)) as H3.
    destruct (H3 [x53] eq_refl) as (u & [E|[E _]] & [Hu|Hu]); try discriminate E.
    + vm_compute in E. injection E as <-. vm_compute in Hu. discriminate.
    + vm_compute in Hu. discriminate.
  - repeat constructor.
  - repeat constructor; vm_compute; discriminate.
Qed.
Print Assumptions C63_v0_refuted.

(** ** C64: a signer that has no key *)

Theorem C64_v0_no_key : forall (X : Ext) (S : SignExt) (T : SchnorrExt) k p p' used errs,
  psbt0_sign k p = Ok (p', used, errs) -> one_map_per_input p -> Forall sorted_origins (p0_inputs p) ->
  (forall n s, spend_at p n s -> keys_for k (i0_bip32_derivation (snd s)) [] /\ forall leaf x sk, ~ wanted k (snd s) leaf x sk) ->
  p' = p
  /\ (forall n ks, In (n, ks) used -> ks = KeysEcdsa [] \/ ks = KeysSchnorr [])
  /\ (forall n e, In (n, e) errs -> e = S0MissingSpendUtxo \/ e = S0UnknownOutputType).
Proof.
  intros X S T k p p' used errs H Hone Hso Hno. pose proof (C82_errors X S T k p p' used errs H Hone Hso) as Herr.
  destruct (sign0_at k p p' used errs H) as (Hb & Eu & Ee & Hsame & Hn).
  assert (Hspend : forall n, n < blen (p0_inputs p) -> exists s, spend_at p n s).
  { intros n Hlt. apply spend_at_ex; [exact Hlt|]. unfold one_map_per_input in Hone. unfold blen in *. lia. }
  assert (Hres : forall n s i' ks, spend_at p n s -> outcome0 k p n = Ok (i', ks) -> i' = snd s /\ (ks = KeysEcdsa [] \/ ks = KeysSchnorr [])).
  { intros n s i' ks Hs E. destruct (Hno n s Hs) as [Hk Hw]. apply found_iff in Hk.
    destruct (kinds_dec p n s Hs) as [He|[Ht|[He Ht]]].
    - rewrite (outcome0_ecdsa k p n s Hs (in_bounds_at p n s Hb Hs) He), Hk in E. cbn [is_empty map add_sigs fold_left] in E.
      destruct (psbt0_sighash_ecdsa p n (p0_unsigned_tx p)) as [[m ty]|e|]; [| |discriminate]; inj E; injection E as <- <-; (split; [|now left]); [|reflexivity].
      now destruct (snd s).
    - rewrite (outcome0_taproot k p n s Hs Ht) in E. destruct s as [t i]. pose proof Hs as Hs'. apply spend_at_iff in Hs' as [_ Hi].
      assert (Hsi : sorted_origins i) by (rewrite Forall_forall in Hso; apply Hso; eapply nth_error_In; exact Hi).
      destruct (origins_pre i Hsi) as [Hnd Hg]. cbn [snd] in E. rewrite (nothing_wanted k i (i0_tap_key_origins i) [] _ Hnd Hg) in E.
      + cbn [bind] in E. inj E. injection E as <- <-. auto.
      + intros leaf x sk W. apply wanted_in_all in W. exact (Hw leaf x sk W).
    - destruct (outcome0_other k p n s Hs (in_bounds_at p n s Hb Hs) He Ht) as (e & E' & _). congruence. }
  split; [|split].
  - apply (psbt0_inputs_eq p p' (p0_inputs p') (sb0_rest _ _ Hsame)). apply nth_ext_N. intros n.
    destruct (N.lt_ge_cases n (blen (p0_inputs p))) as [Hlt|Hge].
    + rewrite (Hn n Hlt). destruct (Hspend n Hlt) as [[t i] Hs]. specialize (Hres n (t, i)). destruct (outcome0 k p n) as [[i' ks]|e|]; try reflexivity.
      destruct (Hres i' ks Hs eq_refl) as [-> _]. apply spend_at_iff in Hs as [_ Hi]. now rewrite Hi.
    + pose proof (same_signed0_len _ _ Hsame) as Hlen. unfold blen in Hge. rewrite (proj2 (nth_error_None _ _)), (proj2 (nth_error_None _ _)) by lia. reflexivity.
  - intros n ks Hin. rewrite Eu in Hin. apply used0_in in Hin as [Hlt (i' & E)]. destruct (Hspend n Hlt) as [s Hs]. now apply (Hres n s i' ks Hs) in E.
  - intros n e Hin. apply Herr in Hin as (s & Hs & He). destruct (Hno n s Hs) as [Hk Hw].
    destruct He as [He|u Hu Hk'|sks e Hsp Hk' Hne He|leaf x sk e Hsp Hw' He]; auto.
    + exfalso. apply Hne. apply found_iff in Hk, Hk'. congruence.
    + destruct (Hw _ _ _ Hw').
Qed.
Print Assumptions C64_v0_no_key.

Example C64_v0_example :
  let k : provider := fun _ => inr None in
  (forall n s, spend_at ex0_all n s -> keys_for k (i0_bip32_derivation (snd s)) [] /\ forall leaf x sk, ~ wanted k (snd s) leaf x sk)
  /\ then_holds (psbt0_sign k ex0_all) (fun r => fst (fst r) = ex0_all /\ blen (snd (fst r)) = 6).
Proof.
  intros k. split; [|vm_compute; auto]. intros n s _. split.
  - apply found_iff. induction (i0_bip32_derivation (snd s)) as [|[pk src] l IH]; [reflexivity|exact IH].
  - intros leaf x sk Hw. destruct Hw as [x src sk W1 W2 W3 W4|x lhs src sk lh W1 W2 W3 W4]; discriminate.
Qed.

(** ** C65: keys that are listed *)

Theorem C65_v0_refuted : exists (X : Ext) (S : SignExt) (T : SchnorrExt) x p p' used i i' pk s,
  psbt0_sign (xprv_get_key x) p = Ok (p', used, []) /\ one_map_per_input p
  /\ nth_error (p0_inputs p) 0 = Some i /\ nth_error (p0_inputs p') 0 = Some i'
  /\ i0_partial_sigs i = [] /\ In (pk, s) (i0_partial_sigs i') /\ ~ In (pub_inner pk) (map fst (i0_bip32_derivation i)).
Proof.
  set (i := set_i0_bip32_derivation [(ex0_pk 1, ex0_src 7)] ex0_wpkh).
  exists toy, toy_sign, toy_schnorr, ex0_x, (ex0_of [i]). do 2 eexists. exists i. do 3 eexists.
  split; [vm_compute; reflexivity|]. split; [reflexivity|]. split; [reflexivity|]. split; [vm_compute; reflexivity|]. split; [reflexivity|].
  split; [left; reflexivity|]. vm_compute. intros [H|[]]. discriminate.
Qed.
Print Assumptions C65_v0_refuted.

(** Signatures for leaves are stored under listed keys only; so are partial signatures if the
    provider returns the keys that are asked for. *)
Theorem C65_v0_listed : forall (X : Ext) (S : SignExt) (T : SchnorrExt) k p p' used errs n s i',
  psbt0_sign k p = Ok (p', used, errs) -> Forall sorted_origins (p0_inputs p) ->
  spend_at p n s -> nth_error (p0_inputs p') (N.to_nat n) = Some i' ->
  (forall x lh g, m_get sk_xleaf (x, lh) (i0_tap_script_sigs i') = Some g ->
     m_get sk_xleaf (x, lh) (i0_tap_script_sigs (snd s)) = Some g
     \/ exists lhs src, In (x, (lhs, src)) (i0_tap_key_origins (snd s)) /\ In lh lhs)
  /\ ((forall pk src sk, has_key k pk src sk -> public_of sk = PubKey true pk) ->
      forall pk g, m_get sk_pubkey pk (i0_partial_sigs i') = Some g ->
      m_get sk_pubkey pk (i0_partial_sigs (snd s)) = Some g
      \/ pub_compressed pk = true /\ In (pub_inner pk) (map fst (i0_bip32_derivation (snd s)))).
Proof.
  intros X S T k p p' used errs n s i' H Hso Hs Hi'. destruct (C81_signed X S T k p p' used errs H Hso) as (_ & Hall).
  destruct (Hall n s Hs) as (i'' & r & Hi'' & Hsig & _). rewrite Hi' in Hi''. injection Hi'' as <-.
  assert (Hsame : forall l, set_i0_partial_sigs l (snd s) = i' -> i0_tap_script_sigs i' = i0_tap_script_sigs (snd s)
     /\ i0_partial_sigs i' = l) by (intros l <-; auto).
  destruct Hsig as [sks m ty new He Hk Hm Hnew|He Hk|sks He Hk Hne Hm|j xs Ht Hw [R1 R2 R3] Hxs|leaf x sk Ht Hw Hm|He Ht]; auto 6.
  - destruct (Hsame new eq_refl) as (-> & ->). split; [auto|]. intros Hhon pk g Hg.
    apply Hnew in Hg as [(l1 & sk & l2 & E1 & E2 & _)|[_ Hg]]; [right|now left].
    assert (Hin : In sk sks) by (rewrite E1; apply in_elt). clear - Hin E2 Hk Hhon.
    induction Hk as [|pk' src' l sk' sks Hh Hk IH|pk' src' l sks Hh Hk IH]; [destruct Hin| |].
    + destruct Hin as [->|Hin]; [|destruct (IH Hin); split; [assumption|now right]]. apply Hhon in Hh. rewrite Hh in E2. subst pk. split; [reflexivity|now left].
    + destruct (IH Hin). split; [assumption|now right].
  - split.
    + intros x lh g Hg. apply R3 in Hg as [Hg|(sk & m & ty & W & _)]; [now left|]. right. inversion W as [|x0 lhs src sk0 lh0 W1 W2 W3 W4]; subst. eauto.
    + intros _ pk g Hg. left. now rewrite R1 in Hg.
Qed.
Print Assumptions C65_v0_listed.
