(** Facts about [sighash_msg]. *)
From Verif Require Import Base OMap Consensus ConsensusFacts Ext Raw TapTree Serialize SerializeFacts MapCodec V2Psbt V2Roles V2RolesFacts
  Script SighashType V2Sign SpecSign V2SignFacts V2Finalize SpecFinalize V0Error V0Input V0Output V0Psbt SpecExtract0 V0ExtractFacts
  V0Sign SpecSign0 V0SignFacts V0CheckFacts V0Finalize SpecFinalize0 V0FinalizeFacts V0Update.
Local Open Scope N_scope.

Section Msg.
Context `{X : Ext} `{S : SignExt} `{T : SchnorrExt}.
Variables (p : psbt0) (n : N) (s : txin * input0) (leaf : option bytes).
Hypothesis Hone : one_map_per_input p.
Hypothesis Hs : spend_at p n s.

Definition msg_type (o : outtype) (m : bytes) : sighashmsg := match o with Bare | Sh => LegacySighash m | Tr => TapSighash m | _ => SegwitV0Sighash m end.
Definition msg_err (e : signerr0) : sighashmsgerr :=
  match e with
  | S0InvalidSighashType => HMInvalidSighashType
  | S0MissingRedeemScript => HMMissingRedeemScript
  | S0MissingWitnessScript => HMMissingWitnessScript
  | _ => HMTaproot
  end.

Lemma msg_head us u t : psbt0_prevouts p = Ok us -> funds0 s u ->
  psbt0_sighash_msg p n t leaf =
  if is_p2tr (to_script u) then
    hash_ty <- ok_or (input0_taproot_hash_ty (snd s)) HMInvalidSighashType ;;
    m <- ok_or (taproot_signature_hash t n (PrevoutsAll us) leaf (tap_num hash_ty)) HMTaproot ;;
    Ok (TapSighash m)
  else
    hash_ty <- ok_or (input0_ecdsa_hash_ty (snd s)) HMInvalidSighashType ;;
    let nested f := is_p2sh (to_script u) && match i0_redeem_script (snd s) with Some s => f s | None => false end in
    if is_p2wpkh (to_script u) || is_p2wsh (to_script u) || nested is_p2wpkh || nested is_p2wsh then
      m <- (if is_p2wpkh (to_script u) then
              or_err (p2wpkh_signature_hash0 t n (to_script u) (to_value u) hash_ty) HMP2wpkh
            else if nested is_p2wpkh then
              script_code <- expect (i0_redeem_script (snd s)) ;;
              or_err (p2wpkh_signature_hash0 t n script_code (to_value u) hash_ty) HMP2wpkh
            else
              witness_script <- ok_or (i0_witness_script (snd s)) HMMissingWitnessScript ;;
              ok_or (p2wsh_signature_hash t n witness_script (to_value u) hash_ty) HMInputsIndex) ;;
      Ok (SegwitV0Sighash m)
    else
      script_code <- (if is_p2sh (to_script u) then ok_or (i0_redeem_script (snd s)) HMMissingRedeemScript else Ok (to_script u)) ;;
      m <- ok_or (legacy_signature_hash t n script_code hash_ty) HMInputsIndex ;;
      Ok (LegacySighash m).
Proof.
  intros Hp Hu. unfold psbt0_sighash_msg. pose proof (spend_at_lt _ _ _ Hs) as [Hlt _]. replace (blen (p0_inputs p) <=? n) with false by lia. cbn [fail_if bind].
  destruct s as [ti i]. pose proof (proj1 (spend_at_iff _ _ _ _) Hs) as [_ Hi]. rewrite nth_N_nth, Hi. cbn [expect bind].
  rewrite Hp. unfold or_err at 1. cbn [map_err bind]. unfold get_scriptpubkey. rewrite (proj2 (get_utxo_ok p n _ u Hs) Hu). unfold or_err at 1. cbn [map_err bind snd].
  destruct (is_p2tr (to_script u)).
  - replace (match i0_sighash_type i with Some n => sighash_tap_ty n | None => Some TDefault end) with (input0_taproot_hash_ty i); [reflexivity|].
    unfold input0_taproot_hash_ty. destruct (i0_sighash_type i); reflexivity.
  - destruct (input0_ecdsa_hash_ty i); reflexivity.
Qed.

Lemma tr_not_other c : is_p2tr c = true -> is_p2wpkh c = false /\ is_p2wsh c = false /\ is_p2sh c = false.
Proof.
  intros H. apply is_p2tr_iff in H as (k & Hk & _). split; [|split].
  - apply is_p2wpkh_false. intros (h & Hh & _). destruct (program_inj _ _ _ _ _ Hk Hh). discriminate.
  - apply is_p2wsh_false. intros (h & Hh & _). destruct (program_inj _ _ _ _ _ Hk Hh). discriminate.
  - apply is_p2sh_false. intros H. exact (p2sh_not_program _ _ _ H Hk).
Qed.

Lemma msg_ecdsa us u o : psbt0_prevouts p = Ok us -> funds0 s u -> kind_of (to_script u) (i0_redeem_script (snd s)) = Some o -> o <> Tr ->
  psbt0_sighash_msg p n (p0_unsigned_tx p) leaf =
  match psbt0_sighash_ecdsa p n (p0_unsigned_tx p) with
  | Ok (m, _) => Ok (msg_type o m)
  | Err e => Err (msg_err e)
  | Panic => Panic
  end.
Proof.
  intros Hp Hu Hk Ho. rewrite (msg_head us u _ Hp Hu), sighash0_slot, (proj2 (slot0_ok p n s u)) by auto. cbn [bind fst snd].
  change (kind0 (s, u)) with (kind_of (to_script u) (i0_redeem_script (snd s))). rewrite Hk.
  assert (Htr : is_p2tr (to_script u) = false).
  { destruct (is_p2tr (to_script u)) eqn:E; [|reflexivity]. apply is_p2tr_iff in E as (k & E). apply kind_of_iff in Hk. destruct Ho.
    eapply kind_unique; [exact Hk|]. eapply OKTr. exact E. }
  rewrite Htr. cbv zeta. pose proof (spend_at_lt _ _ _ Hs) as [_ Hlt].
  unfold legacy_signature_hash, p2wpkh_signature_hash0, p2wsh_signature_hash. replace (n <? blen (tx_input (p0_unsigned_tx p))) with true by lia.
  destruct (input0_ecdsa_hash_ty (snd s)) as [ty|]; cbn [ok_or bind]; [|destruct o; cbn; congruence].
  unfold kind_of in Hk.
  destruct (is_witness_program (to_script u)) eqn:Ew, (is_p2sh (to_script u)) eqn:Esh; cbn [orb negb andb] in *.
  1: { exfalso. apply is_p2sh_iff in Esh. apply is_witness_program_iff in Ew as (v & g & Hg). exact (p2sh_not_program _ _ _ Esh Hg). }
  - destruct (is_p2wpkh (to_script u)) eqn:E1; [|destruct (is_p2wsh (to_script u)) eqn:E2; [|rewrite Htr in Hk; discriminate]]; injection Hk as <-; cbn [orb].
    + unfold p2wpkh_script_code. rewrite E1. reflexivity.
    + destruct (i0_witness_script (snd s)); reflexivity.
  - assert (E1 : is_p2wpkh (to_script u) = false).
    { apply is_p2wpkh_false. intros (h & Hh & _). apply is_witness_program_false in Ew. apply Ew. eauto. }
    assert (E2 : is_p2wsh (to_script u) = false).
    { apply is_p2wsh_false. intros (h & Hh & _). apply is_witness_program_false in Ew. apply Ew. eauto. }
    rewrite E1, E2 in *. cbn [orb] in *. destruct (i0_redeem_script (snd s)) as [c|]; [|injection Hk as <-; reflexivity].
    destruct (is_p2wpkh c) eqn:E3; [|destruct (is_p2wsh c) eqn:E4]; injection Hk as <-; cbn [orb expect bind ok_or].
    + unfold p2wpkh_script_code. rewrite E3. reflexivity.
    + destruct (i0_witness_script (snd s)); reflexivity.
    + reflexivity.
  - assert (E1 : is_p2wpkh (to_script u) = false).
    { apply is_p2wpkh_false. intros (h & Hh & _). apply is_witness_program_false in Ew. apply Ew. eauto. }
    assert (E2 : is_p2wsh (to_script u) = false).
    { apply is_p2wsh_false. intros (h & Hh & _). apply is_witness_program_false in Ew. apply Ew. eauto. }
    rewrite E1, E2. injection Hk as <-. reflexivity.
Qed.

(** A witness program of no known kind is signed like a bare script. *)
Lemma msg_unknown us u : psbt0_prevouts p = Ok us -> funds0 s u -> kind_of (to_script u) (i0_redeem_script (snd s)) = None ->
  psbt0_sighash_msg p n (p0_unsigned_tx p) leaf =
  ty <- ok_or (input0_ecdsa_hash_ty (snd s)) HMInvalidSighashType ;; Ok (LegacySighash (legacy_digest (p0_unsigned_tx p) n (to_script u) ty)).
Proof.
  intros Hp Hu Hk. rewrite (msg_head us u _ Hp Hu). apply kind_unknown in Hk as ((v & g & Hg) & Hno).
  assert (E1 : is_p2wpkh (to_script u) = false) by (apply is_p2wpkh_false; intros (h & Hh); destruct (Hno h) as (A & B & C); contradiction).
  assert (E2 : is_p2wsh (to_script u) = false) by (apply is_p2wsh_false; intros (h & Hh); destruct (Hno h) as (A & B & C); contradiction).
  assert (E3 : is_p2tr (to_script u) = false) by (apply is_p2tr_false; intros (h & Hh); destruct (Hno h) as (A & B & C); contradiction).
  assert (E4 : is_p2sh (to_script u) = false) by (apply is_p2sh_false; intros H; exact (p2sh_not_program _ _ _ H Hg)).
  rewrite E1, E2, E3, E4. pose proof (spend_at_lt _ _ _ Hs) as [_ Hlt]. destruct (input0_ecdsa_hash_ty (snd s)) as [ty|]; cbn [ok_or bind]; [|reflexivity].
  cbn [orb andb bind]. unfold legacy_signature_hash. replace (n <? blen (tx_input (p0_unsigned_tx p))) with true by lia. reflexivity.
Qed.

Lemma F2_some {A B} (R : A -> B -> Prop) l us : Forall2 R l us -> forall k a b, nth_error l k = Some a -> nth_error us k = Some b -> R a b.
Proof. intros H. induction H as [|a b l us Hab H IH]; intros [|k] x y; cbn; intros E E'; try discriminate; [congruence|eauto]. Qed.
Lemma all_found us : vouts_in_bounds p -> spent_outputs p us -> spend_utxos p (input_indices0 p) = Ok (map Some us).
Proof.
  intros Hb Hus. destruct (spend_utxos_spec p (input_indices0 p) Hb) as (os & E & HF). rewrite E. f_equal.
  assert (Hl : length os = length us).
  { rewrite <- (F2_len _ _ _ HF), indices0_length. unfold spent_outputs in Hus. rewrite <- (F2_len _ _ _ Hus), spends_length by assumption. reflexivity. }
  apply (nth_ext _ _ None None); [now rewrite map_length|]. intros k Hk.
  assert (Hn : nth_error (map Some us) k = nth_error os k); [|apply (nth_error_nth' _ None) in Hk as Hk'; rewrite <- Hn in Hk'; rewrite (nth_error_nth _ _ None Hk'); reflexivity].
  assert (Hk1 : (k < length (p0_inputs p))%nat) by (rewrite <- indices0_length, (F2_len _ _ _ HF); exact Hk).
  assert (Hi : nth_error (input_indices0 p) k = Some (N.of_nat k)).
  { rewrite indices0_nth. replace (k <? length (p0_inputs p))%nat with true by (symmetry; apply Nat.ltb_lt; lia). reflexivity. }
  destruct (spend_of p (N.of_nat k) Hone) as [s' Hs']; [unfold blen; lia|].
  destruct (spent_at p us _ s' Hus Hs') as (u & Hu & Hf). rewrite Nat2N.id in Hu. rewrite nth_error_map, Hu. cbn [option_map].
  destruct (nth_error os k) as [o|] eqn:Eo; [|apply nth_error_None in Eo; lia]. pose proof (F2_some _ _ _ HF _ _ _ Hi Eo) as Ho.
  apply (spend_utxo_ok p _ s' u Hs') in Hf. f_equal. destruct o as [v|]; cbn in Ho; [congruence|]. destruct Ho; congruence.
Qed.

Lemma msg_taproot {LA : AnyoneLaws T} us u : vouts_in_bounds p -> psbt0_prevouts p = Ok us -> spent_outputs p us -> funds0 s u -> is_p2tr (to_script u) = true ->
  psbt0_sighash_msg p n (p0_unsigned_tx p) leaf =
  match psbt0_sighash_taproot p n (p0_unsigned_tx p) leaf with
  | Ok (m, _) => Ok (TapSighash m)
  | Err e => Err (msg_err e)
  | Panic => Panic
  end.
Proof.
  intros Hb Hp Hus Hu Htr. rewrite (msg_head us u _ Hp Hu), Htr, taproot0_slot, (proj2 (slot0_ok p n s u)) by auto. cbn [bind fst snd].
  assert (Hk : kind0 (s, u) = Some Tr) by (apply kind0_iff; apply is_p2tr_iff in Htr as (k & Hk); eapply OKTr; exact Hk). rewrite Hk.
  destruct (input0_taproot_hash_ty (snd s)) as [ty|]; cbn [ok_or bind]; [|reflexivity]. rewrite (all_found us Hb Hus). cbn [bind]. unfold taproot_prev.
  pose proof (spend_at_lt _ _ _ Hs) as [_ Hlt]. destruct (spent_at p us n s Hus Hs) as (u' & Hn & Hu'). rewrite (funds0_fun _ _ _ Hu' Hu) in Hn.
  assert (Hlen : blen us = blen (tx_input (p0_unsigned_tx p))).
  { unfold blen. unfold spent_outputs in Hus. rewrite <- (F2_len _ _ _ Hus), spends_length by assumption. now rewrite Hone. }
  destruct (128 <=? tap_num ty) eqn:Ety.
  - rewrite nth_error_map, Hn. cbn [option_map expect bind ok_or]. unfold taproot_signature_hash. rewrite Hlen, Ety, !N.eqb_refl.
    replace (n <? blen (tx_input (p0_unsigned_tx p))) with true by lia. cbn [andb].
    rewrite (anyone_prevouts _ n us u leaf (tap_num ty)); [|destruct ty; cbn in *; try discriminate; auto|exact Hn].
    destruct (_ || _); reflexivity.
  - replace (forallb is_some (map Some us)) with true by (symmetry; apply forallb_forall; intros o Ho; apply in_map_iff in Ho as (v & <- & _); reflexivity).
    replace (somes (map Some us)) with us by (clear; induction us as [|v l IH]; [reflexivity|]; cbn; now f_equal). cbn [bind].
    destruct (taproot_signature_hash _ _ _ _ _); reflexivity.
Qed.

End Msg.
