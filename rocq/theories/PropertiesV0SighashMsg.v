(** C104: [sighash_msg] returns the message that is signed. *)
From Verif Require Import Base OMap Consensus ConsensusFacts Ext ExtInstance Raw TapTree SpecCodec Serialize SerializeFacts MapCodec
  V2Global V2Input V2Psbt SampleV2 V2Roles Script SighashType V2Sign SignInstance SpecSign V2RolesFacts V2SignFacts
  V0Error V0Input V0Output V0Psbt SpecPsbt0 V0WireFacts SampleV0 SpecExtract0 V0ExtractFacts V0Sign SchnorrInstance SpecSign0 V0SignFacts
  V0SignResultFacts V0CheckFacts V0Finalize SpecFinalize0 V0FinalizeFacts V0Update DescInstance V0SighashMsgFacts PropertiesV0Sign.
Local Open Scope N_scope.

(** Used by the examples only; the theorems bind their own. *)
#[local] Existing Instance toy | 100.
#[local] Existing Instance toy_sign | 100.
#[local] Existing Instance toy_schnorr | 100.

Lemma funded_bounds p us : spent_outputs p us -> vouts_in_bounds p.
Proof. intros H. unfold vouts_in_bounds. induction H as [|s u l l' Hf _ IH]; constructor; [|exact IH]. intros Ho. exact (oob_no_funds s u Ho Hf). Qed.
Lemma prevouts_all p us : one_map_per_input p -> spent_outputs p us -> psbt0_prevouts p = Ok us.
Proof.
  intros Hone Hus. pose proof (prevouts_spec p Hone) as H. destruct (psbt0_prevouts p) as [vs|e|].
  - f_equal. eapply spent_outputs_fun; eassumption.
  - destruct H as (k & ((s & Hs & Hn) & _) & _). destruct (spent_at p us k s Hus Hs) as (u & _ & Hu). destruct (no_utxo_no_funds s u Hn Hu).
  - apply Exists_exists in H as (s & Hs & Ho). pose proof (funded_bounds p us Hus) as Hb. unfold vouts_in_bounds in Hb. rewrite Forall_forall in Hb. destruct (Hb s Hs Ho).
Qed.
Lemma outtype_eq_dec (a b : outtype) : {a = b} + {a <> b}.
Proof. decide equality. Qed.
Lemma spends_kind_fun s o o' : spends_kind s o -> spends_kind s o' -> o = o'.
Proof. intros (u & Hu & Ho) (v & Hv & Ho'). rewrite (funds0_fun _ _ _ Hv Hu) in Ho'. eapply kind_unique; eassumption. Qed.
Lemma taproot_kind s : spends_taproot s <-> spends_kind s Tr.
Proof.
  split.
  - intros (u & k & Hu & Hk). exists u. split; [exact Hu|]. eapply OKTr. exact Hk.
  - intros (u & Hu & Hk). inversion Hk as [| | | | | |k Hk']. exists u, k. auto.
Qed.

(** If all outputs that are spent are known, it is the message of the signer. *)
Theorem C104_ecdsa : forall (X : Ext) (S : SignExt) (T : SchnorrExt) p n s leaf us m,
  one_map_per_input p -> spent_outputs p us -> spend_at p n s -> spends_ecdsa s ->
  (psbt0_sighash_msg p n (p0_unsigned_tx p) leaf = Ok (LegacySighash m) <->
     (spends_kind s Bare \/ spends_kind s Sh) /\ exists ty, to_sign0 p (p0_unsigned_tx p) n m ty)
  /\ (psbt0_sighash_msg p n (p0_unsigned_tx p) leaf = Ok (SegwitV0Sighash m) <->
     ~ (spends_kind s Bare \/ spends_kind s Sh) /\ exists ty, to_sign0 p (p0_unsigned_tx p) n m ty)
  /\ psbt0_sighash_msg p n (p0_unsigned_tx p) leaf <> Ok (TapSighash m).
Proof.
  intros X S T p n s leaf us m Hone Hus Hs (o & Hk & Ho). pose proof Hk as (u & Hu & Hk'). apply kind_of_iff in Hk'.
  rewrite (msg_ecdsa p n s leaf Hs us u o (prevouts_all p us Hone Hus) Hu Hk' Ho). pose proof (spend_at_lt _ _ _ Hs) as [_ Hlt].
  assert (Hex : (exists ty, to_sign0 p (p0_unsigned_tx p) n m ty) <-> exists ty, psbt0_sighash_ecdsa p n (p0_unsigned_tx p) = Ok (m, ty)).
  { split; intros (ty & H); exists ty; now apply (sighash0_iff p n _ m ty Hlt). }
  assert (Hleg : (spends_kind s Bare \/ spends_kind s Sh) <-> (o = Bare \/ o = Sh)).
  { split; intros [H|H]; [left|right|left|right]; try (subst o; exact Hk); exact (spends_kind_fun s _ _ Hk H). }
  rewrite Hex, Hleg. clear Hex Hleg. destruct (psbt0_sighash_ecdsa p n (p0_unsigned_tx p)) as [[m' ty]|e|].
  - split; [|split].
    + split; [intros E; split|intros (Hl & ty' & E); injection E as -> _; destruct Hl as [->| ->]; reflexivity].
      * destruct o; cbn [msg_type] in E; try discriminate; auto.
      * exists ty. destruct o; cbn [msg_type] in E; try discriminate; injection E as ->; reflexivity.
    + split; [intros E; split|intros (Hl & ty' & E); injection E as -> _; destruct o; cbn [msg_type]; try reflexivity; destruct Hl; auto; contradiction].
      * destruct o; cbn [msg_type] in E; try discriminate; intros [H|H]; discriminate.
      * exists ty. destruct o; cbn [msg_type] in E; try discriminate; injection E as ->; reflexivity.
    + destruct o; cbn [msg_type]; try discriminate. contradiction.
  - split; [|split; [|discriminate]]; split; try discriminate; intros (_ & ty & E); discriminate.
  - split; [|split; [|discriminate]]; split; try discriminate; intros (_ & ty & E); discriminate.
Qed.
Print Assumptions C104_ecdsa.

Theorem C104_taproot : forall (X : Ext) (S : SignExt) (T : SchnorrExt) (LA : AnyoneLaws T) p n s leaf us,
  one_map_per_input p -> spent_outputs p us -> spend_at p n s -> spends_taproot s ->
  forall r, psbt0_sighash_msg p n (p0_unsigned_tx p) leaf = Ok r <-> exists m ty, r = TapSighash m /\ taproot_to_sign p n leaf m ty.
Proof.
  intros X S T LA p n s leaf us Hone Hus Hs (u & k & Hu & Hk) r. pose proof (funded_bounds p us Hus) as Hb.
  assert (Htr : is_p2tr (to_script u) = true) by (apply is_p2tr_iff; eauto).
  rewrite (msg_taproot p n s leaf Hone Hs us u Hb (prevouts_all p us Hone Hus) Hus Hu Htr). split.
  - destruct (psbt0_sighash_taproot p n (p0_unsigned_tx p) leaf) as [[m ty]|e|] eqn:E; try discriminate. intros H. injection H as <-.
    exists m, ty. split; [reflexivity|]. now apply (taproot0_iff p n leaf m ty Hb).
  - intros (m & ty & -> & H). apply (taproot0_iff p n leaf m ty Hb) in H. now rewrite H.
Qed.
Print Assumptions C104_taproot.

(** For a witness program of a version or length without meaning it is the digest of a signature
    without witness, where the signer refuses. *)
Theorem C104_unknown : forall (X : Ext) (S : SignExt) (T : SchnorrExt) p n s leaf us u,
  one_map_per_input p -> spent_outputs p us -> spend_at p n s -> funds0 s u -> (forall o, ~ spends_kind s o) ->
  psbt0_signing_algorithm p n = Err S0UnknownOutputType
  /\ forall r, psbt0_sighash_msg p n (p0_unsigned_tx p) leaf = Ok r <->
       exists ty, type_of_input0 (snd s) ty /\ r = LegacySighash (legacy_digest (p0_unsigned_tx p) n (to_script u) ty).
Proof.
  intros X S T p n s leaf us u Hone Hus Hs Hu Hno.
  assert (Hk : kind_of (to_script u) (i0_redeem_script (snd s)) = None).
  { destruct (kind_of _ _) as [o|] eqn:E; [|reflexivity]. apply kind_of_iff in E. destruct (Hno o). exists u. auto. }
  split.
  - apply (C32_v0_algorithm X p n s Hs). exists u. split; [exact Hu|]. now apply kind_unknown in Hk.
  - intros r. rewrite (msg_unknown p n s leaf Hs us u (prevouts_all p us Hone Hus) Hu Hk).
    split.
    + destruct (input0_ecdsa_hash_ty (snd s)) as [ty|] eqn:E; cbn [ok_or bind]; [|discriminate]. intros H. injection H as <-. apply hash_ty0_iff in E. eauto.
    + intros (ty & Hty & ->). apply hash_ty0_iff in Hty. now rewrite Hty.
Qed.
Print Assumptions C104_unknown.
Definition msg_v2 : psbt0 := ex0_of [ex0_in (program_script 2 (repeat x44 32))].
Theorem C104_signer_refuted : exists p n m,
  @psbt0_sighash_msg toy_sign toy_schnorr p n (p0_unsigned_tx p) None = Ok (LegacySighash m)
  /\ (exists u s, spend_at p n s /\ funds0 s u /\ program (to_script u) 2 (repeat x44 32))
  /\ @psbt0_sighash_ecdsa toy_sign p n (p0_unsigned_tx p) = Err S0UnknownOutputType.
Proof.
  exists msg_v2, 0. eexists. split; [vm_compute; reflexivity|]. split; [|vm_compute; reflexivity].
  exists (TxOut 5000 (program_script 2 (repeat x44 32))), (TxIn txid_a 0 [] 4294967295 [], ex0_in (program_script 2 (repeat x44 32))).
  split; [reflexivity|]. split; [left; reflexivity|]. split; [reflexivity|]. split; [vm_compute; discriminate|]. vm_compute. split; discriminate.
Qed.
Print Assumptions C104_signer_refuted.

(** The errors. *)
Inductive msg_error (p : psbt0) (n : N) : sighashmsgerr -> Prop :=
| MEIndex : blen (p0_inputs p) <= n -> msg_error p n (HMIndexOutOfBounds n (blen (p0_inputs p)))
| MEUtxo k : n < blen (p0_inputs p) -> first_unknown p k -> msg_error p n HMMissingSpendUtxos
| METype s us : spent_outputs p us -> spend_at p n s -> ~ spends_taproot s -> (forall ty, ~ type_of_input0 (snd s) ty) ->
    msg_error p n HMInvalidSighashType
| METapType s us : spent_outputs p us -> spend_at p n s -> spends_taproot s -> (forall ty, ~ taproot_type_of_input (snd s) ty) ->
    msg_error p n HMInvalidSighashType
| MERedeem s us ty : spent_outputs p us -> spend_at p n s -> type_of_input0 (snd s) ty -> spends_kind s Sh ->
    i0_redeem_script (snd s) = None -> msg_error p n HMMissingRedeemScript
| MEWitness s us ty : spent_outputs p us -> spend_at p n s -> type_of_input0 (snd s) ty -> spends_kind s Wsh \/ spends_kind s ShWsh ->
    i0_witness_script (snd s) = None -> msg_error p n HMMissingWitnessScript
| MESingle s us ty : spent_outputs p us -> spend_at p n s -> spends_taproot s -> taproot_type_of_input (snd s) ty ->
    In ty [0x03; 0x83] -> blen (tx_output (p0_unsigned_tx p)) <= n -> msg_error p n HMTaproot.

Lemma msg_unfunded `{X : Ext} `{S : SignExt} `{T : SchnorrExt} p n leaf : n < blen (p0_inputs p) ->
  (forall us, psbt0_prevouts p <> Ok us) ->
  psbt0_sighash_msg p n (p0_unsigned_tx p) leaf = match psbt0_prevouts p with Panic => Panic | _ => Err HMMissingSpendUtxos end.
Proof.
  intros Hn Hp. unfold psbt0_sighash_msg. replace (blen (p0_inputs p) <=? n) with false by lia. cbn [fail_if bind]. rewrite nth_N_nth.
  destruct (nth_error (p0_inputs p) (N.to_nat n)) eqn:E; [|apply nth_error_None in E; unfold blen in Hn; lia]. cbn [expect bind].
  destruct (psbt0_prevouts p) as [us|e|]; [destruct (Hp us eq_refl)|reflexivity|reflexivity].
Qed.
Lemma msg_taproot_error `{X : Ext} `{S : SignExt} `{T : SchnorrExt} p n s us e : one_map_per_input p -> spent_outputs p us -> spend_at p n s -> spends_taproot s ->
  taproot_error p n s e -> msg_error p n (msg_err e).
Proof.
  intros Hone Hus Hs Ht H. destruct H as [Hno|ty s' Hty Hin Hs' Hn|ty Hty Hin Hle Hall]; cbn [msg_err].
  - eapply METapType; eassumption.
  - exfalso. unfold spent_outputs in Hus. assert (Hb : exists u, funds0 s' u).
    { clear - Hus Hs'. induction Hus as [|a b l l' Hab _ IH]; [destruct Hs'|]. destruct Hs' as [->|Hs']; eauto. }
    destruct Hb as (u & Hu). exact (no_utxo_no_funds s' u Hn Hu).
  - eapply MESingle; eassumption.
Qed.

Theorem C104_error : forall (X : Ext) (S : SignExt) (T : SchnorrExt) (LA : AnyoneLaws T) p n leaf e,
  one_map_per_input p -> (psbt0_sighash_msg p n (p0_unsigned_tx p) leaf = Err e <-> msg_error p n e).
Proof.
  intros X S T LA p n leaf e Hone. destruct (N.lt_ge_cases n (blen (p0_inputs p))) as [Hn|Hn].
  2:{ assert (E : psbt0_sighash_msg p n (p0_unsigned_tx p) leaf = Err (HMIndexOutOfBounds n (blen (p0_inputs p)))).
      { unfold psbt0_sighash_msg. replace (blen (p0_inputs p) <=? n) with true by lia. reflexivity. }
      rewrite E. split; [intros H; injection H as <-; now constructor|].
      intros H. destruct H; try reflexivity; try lia;
        match goal with Hs : spend_at _ _ _ |- _ => pose proof (spend_at_lt _ _ _ Hs) as [Hlt _] end; lia. }
  destruct (spend_of p n Hone Hn) as [s Hs]. pose proof (prevouts_spec p Hone) as Hp.
  assert (Hfun : forall s', spend_at p n s' -> s' = s) by (intros s' H; eapply spend_at_fun; eassumption).
  destruct (psbt0_prevouts p) as [us|e'|] eqn:Ep.
  - pose proof (funded_bounds p us Hp) as Hb. destruct (spent_at p us n s Hp Hs) as (u & _ & Hu).
    assert (Hnoutxo : forall k, ~ first_unknown p k).
    { intros k ((s' & Hs' & Hno) & _). destruct (spent_at p us k s' Hp Hs') as (v & _ & Hv). exact (no_utxo_no_funds s' v Hno Hv). }
    destruct (kind_of (to_script u) (i0_redeem_script (snd s))) as [o|] eqn:Ek.
    + pose proof Ek as Hk. apply kind_of_iff in Hk. assert (Hsk : spends_kind s o) by (exists u; auto).
      destruct (outtype_eq_dec o Tr) as [->|Ho].
      * assert (Ht : spends_taproot s) by now apply taproot_kind.
        assert (Htr : is_p2tr (to_script u) = true) by (inversion Hk as [| | | | | |k Hk']; apply is_p2tr_iff; eauto).
        rewrite (msg_taproot p n s leaf Hone Hs us u Hb Ep Hp Hu Htr). pose proof (taproot0_error p n s leaf) as Herr. split.
        -- destruct (psbt0_sighash_taproot p n (p0_unsigned_tx p) leaf) as [[m ty]|e0|] eqn:E; try discriminate. intros H. injection H as <-.
           pose proof (proj1 (Herr e0 Hb Hone Hs Ht) eq_refl). eapply msg_taproot_error; eassumption.
        -- assert (Hback : forall e0, taproot_error p n s e0 -> match psbt0_sighash_taproot p n (p0_unsigned_tx p) leaf with
             | Ok (m, _) => Ok (TapSighash m) | Err e => Err (msg_err e) | Panic => Panic end = Err (msg_err e0)).
           { intros e0 H0. apply (Herr e0 Hb Hone Hs Ht) in H0. now rewrite H0. }
           intros H. destruct H as [H|k _ H|s' us' _ Hs' Hnt _|s' us' _ Hs' _ Hty|s' us' ty _ Hs' _ Hk' _|s' us' ty _ Hs' _ Hk' _|s' us' ty _ Hs' _ Hty Hin Hle];
             try (apply Hfun in Hs'; subst s').
           ++ lia.
           ++ destruct (Hnoutxo k H).
           ++ contradiction.
           ++ apply (Hback S0InvalidSighashType). now constructor.
           ++ discriminate (spends_kind_fun s _ _ Hsk Hk').
           ++ destruct Hk' as [Hk'|Hk']; discriminate (spends_kind_fun s _ _ Hsk Hk').
           ++ apply (Hback S0TaprootError). apply TESingle with ty; auto. intros _ s' Hs' Hno.
              apply In_nth_error in Hs' as (k & Hk'). rewrite <- (Nat2N.id k) in Hk'. destruct (spent_at p us (N.of_nat k) s' Hp Hk') as (v & _ & Hv).
              exact (no_utxo_no_funds s' v Hno Hv).
      * assert (Hec : spends_ecdsa s) by (exists o; auto). assert (Hnt : ~ spends_taproot s).
        { intros H. apply taproot_kind in H. apply Ho. exact (spends_kind_fun s _ _ Hsk H). }
        rewrite (msg_ecdsa p n s leaf Hs us u o Ep Hu Ek Ho). pose proof (sighash0_error p n s) as Herr. split.
        -- destruct (psbt0_sighash_ecdsa p n (p0_unsigned_tx p)) as [[m ty]|e0|] eqn:E; try discriminate. intros H. injection H as <-.
           destruct (proj1 (Herr Hs Hec e0) eq_refl) as [Hno|ty Hty Hk' Hr|ty Hty Hk' Hw]; cbn [msg_err].
           ++ eapply METype; eassumption.
           ++ eapply MERedeem; eassumption.
           ++ eapply MEWitness; eassumption.
        -- assert (Hback : forall e0, ecdsa_error s e0 -> match psbt0_sighash_ecdsa p n (p0_unsigned_tx p) with
             | Ok (m, _) => Ok (msg_type o m) | Err e => Err (msg_err e) | Panic => Panic end = Err (msg_err e0)).
           { intros e0 H0. apply (Herr Hs Hec) in H0. now rewrite H0. }
           intros H. destruct H as [H|k _ H|s' us' _ Hs' _ Hty|s' us' _ Hs' Ht _|s' us' ty _ Hs' Hty Hk' Hr|s' us' ty _ Hs' Hty Hk' Hw|s' us' ty _ Hs' Ht _ _ _];
             try (apply Hfun in Hs'; subst s').
           ++ lia.
           ++ destruct (Hnoutxo k H).
           ++ apply (Hback S0InvalidSighashType). now constructor.
           ++ contradiction.
           ++ apply (Hback S0MissingRedeemScript). eapply EERedeem; eassumption.
           ++ apply (Hback S0MissingWitnessScript). eapply EEWitness; eassumption.
           ++ contradiction.
    + rewrite (msg_unknown p n s leaf Hs us u Ep Hu Ek).
      assert (Hno : forall o, ~ spends_kind s o).
      { intros o (v & Hv & Ho). rewrite (funds0_fun _ _ _ Hv Hu) in Ho. apply kind_of_iff in Ho. congruence. }
      split.
      * destruct (input0_ecdsa_hash_ty (snd s)) as [ty|] eqn:E; cbn [ok_or bind]; [discriminate|]. intros H. injection H as <-.
        eapply METype; [exact Hp|exact Hs|intros H; apply taproot_kind in H; exact (Hno _ H)|]. intros ty Hty. apply hash_ty0_iff in Hty. congruence.
      * intros H. destruct H as [H|k _ H|s' us' _ Hs' _ Hty|s' us' _ Hs' Ht _|s' us' ty _ Hs' Hty Hk' Hr|s' us' ty _ Hs' Hty Hk' Hw|s' us' ty _ Hs' Ht _ _ _];
             try (apply Hfun in Hs'; subst s').
        -- lia.
        -- destruct (Hnoutxo k H).
        -- destruct (input0_ecdsa_hash_ty (snd s)) as [ty|] eqn:E; [|reflexivity]. apply hash_ty0_iff in E. destruct (Hty _ E).
        -- apply taproot_kind in Ht. destruct (Hno _ Ht).
        -- destruct (Hno _ Hk').
        -- destruct Hk' as [Hk'|Hk']; destruct (Hno _ Hk').
        -- apply taproot_kind in Ht. destruct (Hno _ Ht).
  - rewrite (msg_unfunded p n leaf Hn), Ep by (rewrite Ep; discriminate). destruct Hp as (k & Hk & _). split.
    + intros H. injection H as <-. now apply MEUtxo with k.
    + assert (Hno : forall us, ~ spent_outputs p us).
      { intros us Hus. rewrite (prevouts_all p us Hone Hus) in Ep. discriminate. }
      intros H. destruct H; try reflexivity; try lia; exfalso; eapply Hno; eassumption.
  - rewrite (msg_unfunded p n leaf Hn), Ep by (rewrite Ep; discriminate). split; [discriminate|].
    destruct (prevouts_panic p Hone Ep) as (k & s0 & H1 & H2 & H3). intros H. exfalso.
    assert (Hno : forall us, ~ spent_outputs p us).
    { intros us Hus. rewrite (prevouts_all p us Hone Hus) in Ep. discriminate. }
    destruct H as [H|k' _ ((s' & H4 & H5) & H6)|s' us Hus|s' us Hus|s' us ty Hus|s' us ty Hus|s' us ty Hus]; [lia| |exact (Hno us Hus)..].
    destruct (N.lt_trichotomy k k') as [Hlt|[->|Hlt]].
    + destruct (H6 k s0 Hlt H1) as (u & Hu). exact (oob_no_funds _ _ H2 Hu).
    + rewrite (spend_at_fun _ _ _ _ H1 H4) in H2. destruct H2 as (_ & t & H2 & _), H5 as [_ H5]. congruence.
    + destruct (H3 k' s' Hlt H4) as (u & Hu). exact (no_utxo_no_funds _ _ H5 Hu).
Qed.
Print Assumptions C104_error.

(** It panics when the transaction given for some input, not only the one asked for, has too few
    outputs, unless nothing is known about an input before it. *)
Theorem C104_panic : forall (X : Ext) (S : SignExt) (T : SchnorrExt) (LA : AnyoneLaws T) p n leaf,
  one_map_per_input p ->
  (psbt0_sighash_msg p n (p0_unsigned_tx p) leaf = Panic <->
   n < blen (p0_inputs p)
   /\ exists k s, spend_at p k s /\ vout_out_of_bounds s /\ forall j s', j < k -> spend_at p j s' -> exists u, funds0 s' u).
Proof.
  intros X S T LA p n leaf Hone. split.
  - intros H. assert (Hn : n < blen (p0_inputs p)).
    { destruct (N.lt_ge_cases n (blen (p0_inputs p))) as [Hn|Hn]; [exact Hn|].
      pose proof (proj2 (C104_error X S T LA p n leaf _ Hone) (MEIndex p n Hn)) as E. congruence. }
    split; [exact Hn|]. apply (prevouts_panic p Hone). destruct (psbt0_prevouts p) as [us|e|] eqn:Ep; [exfalso| |reflexivity].
    + pose proof (prevouts_spec p Hone) as Hp. rewrite Ep in Hp. destruct (spend_of p n Hone Hn) as [s Hs].
      pose proof (funded_bounds p us Hp) as Hb. destruct (spent_at p us n s Hp Hs) as (u & _ & Hu).
      assert (Hoob : forall s', spend_at p n s' -> ~ vout_out_of_bounds s').
      { intros s' Hs'. unfold vouts_in_bounds in Hb. rewrite Forall_forall in Hb. apply Hb. apply spend_at_in. eauto. }
      destruct (kind_of (to_script u) (i0_redeem_script (snd s))) as [o|] eqn:Ek.
      * destruct (outtype_eq_dec o Tr) as [->|Ho].
        -- apply kind_of_iff in Ek. assert (Htr : is_p2tr (to_script u) = true) by (inversion Ek as [| | | | | |k Hk']; apply is_p2tr_iff; eauto).
           rewrite (msg_taproot p n s leaf Hone Hs us u Hb Ep Hp Hu Htr) in H.
           destruct (psbt0_sighash_taproot p n (p0_unsigned_tx p) leaf) as [[m ty]|e0|] eqn:E; try discriminate.
           apply taproot0_panic in E as (a & s' & Hs' & Ho). unfold vouts_in_bounds in Hb. rewrite Forall_forall in Hb. apply (Hb s'); [|exact Ho].
           apply spend_at_in. eauto.
        -- rewrite (msg_ecdsa p n s leaf Hs us u o Ep Hu Ek Ho) in H.
           destruct (psbt0_sighash_ecdsa p n (p0_unsigned_tx p)) as [[m ty]|e0|] eqn:E; try discriminate. pose proof (spend_at_lt _ _ _ Hs) as [_ Hlt].
           apply (sighash0_panic p n _ Hlt) in E as (s' & Hs' & Ho'). exact (Hoob s' Hs' Ho').
      * rewrite (msg_unknown p n s leaf Hs us u Ep Hu Ek) in H. destruct (input0_ecdsa_hash_ty (snd s)); discriminate.
    + rewrite (msg_unfunded p n leaf Hn), Ep in H by (rewrite Ep; discriminate). discriminate.
  - intros (Hn & k & s & H1 & H2 & H3).
    assert (Ep : psbt0_prevouts p = Panic).
    { pose proof (prevouts_spec p Hone) as Hp. destruct (psbt0_prevouts p) as [us|e|]; [exfalso|exfalso|reflexivity].
      - destruct (spent_at p us k s Hp H1) as (u & _ & Hu). exact (oob_no_funds _ _ H2 Hu).
      - destruct Hp as (k' & ((s' & H4 & H5) & H6) & _). destruct (N.lt_trichotomy k k') as [Hlt|[->|Hlt]].
        + destruct (H6 k s Hlt H1) as (u & Hu). exact (oob_no_funds _ _ H2 Hu).
        + rewrite (spend_at_fun _ _ _ _ H1 H4) in H2. destruct H2 as (_ & t & H2 & _), H5 as [_ H5]. congruence.
        + destruct (H3 k' s' Hlt H4) as (u & Hu). exact (no_utxo_no_funds _ _ H5 Hu). }
    rewrite (msg_unfunded p n leaf Hn), Ep by (rewrite Ep; discriminate). reflexivity.
Qed.
Print Assumptions C104_panic.

Example C104_example :
  let t := p0_unsigned_tx ex0_all in
  let us := map (fun i => match i0_witness_utxo i with Some u => u | None => TxOut 0 [] end) (p0_inputs ex0_all) in
  map (fun n => psbt0_sighash_msg ex0_all n t (Some (ex0_leaf xa1))) [0; 1; 2; 3; 4; 5; 6]
  = [Ok (SegwitV0Sighash (segwit_digest t 0 (p2pkh_script (repeat x11 20)) 5000 1)); Ok (SegwitV0Sighash (segwit_digest t 1 [x51] 5000 131));
     Ok (LegacySighash (legacy_digest t 2 [x52] 1)); Ok (TapSighash (taproot_digest t 3 (PrevoutsAll us) (Some (ex0_leaf xa1)) 0));
     Ok (LegacySighash (legacy_digest t 4 (p2pkh_script (repeat x55 20)) 1)); Ok (SegwitV0Sighash (segwit_digest t 5 [x53] 5000 1));
     Err (HMIndexOutOfBounds 6 6)]
  /\ one_map_per_input ex0_all /\ spent_outputs ex0_all us
  /\ psbt0_sighash_msg (ex0_of [ex0_wpkh; input0_default]) 0 (p0_unsigned_tx (ex0_of [ex0_wpkh; input0_default])) None = Err HMMissingSpendUtxos.
Proof.
  cbv zeta. split; [vm_compute; reflexivity|]. split; [reflexivity|]. split; [|vm_compute; reflexivity].
  unfold spent_outputs. repeat (apply Forall2_cons; [left; reflexivity|]). apply Forall2_nil.
Qed.
