(** C87: when the taproot message of a v0 PSBT panics. *)
From Verif Require Import Base OMap Consensus Ext ExtInstance Raw TapTree Serialize SerializeFacts MapCodec
  V2Global V2Input V2Psbt V2Roles Script SighashType V2Sign SignInstance SpecSign V2SignFacts
  V0Error V0Input V0Output V0Psbt SpecExtract0 V0ExtractFacts V0Sign SchnorrInstance SpecSign0 V0SignFacts V0SignResultFacts
  PropertiesV0Sign.
Local Open Scope N_scope.

(** Used by the examples only; the theorems bind their own. *)
#[local] Existing Instance toy | 100.
#[local] Existing Instance toy_sign | 100.
#[local] Existing Instance toy_schnorr | 100.

Lemma spend_utxos_panics `{X : Ext} p l n s : In n l -> spend_at p n s -> vout_out_of_bounds s -> spend_utxos p l = Panic.
Proof.
  intros Hn Hs Ho. assert (P : spend_utxo p n = Panic).
  { pose proof (spend_utxo_funds p n s Hs) as H. destruct (spend_utxo p n) as [u|e|]; [| |reflexivity]; exfalso.
    - now apply (oob_no_funds s u) in Ho.
    - destruct H as [_ H]. now apply oob_not_none in Ho. }
  induction l as [|m l IH]; [destruct Hn|]. cbn [spend_utxos]. destruct Hn as [->|Hn]; [now rewrite P|].
  rewrite (IH Hn). destruct (spend_utxo p m); reflexivity.
Qed.

(** An input whose own transaction lacks the output spent makes it panic; so does any other input,
    once the input signed is known to spend a taproot output with a valid sighash type. *)
Theorem C87_panic_iff : forall (X : Ext) (T : SchnorrExt) p n t leaf,
  psbt0_sighash_taproot p n t leaf = Panic <->
  exists s, spend_at p n s /\
    (vout_out_of_bounds s
     \/ spends_taproot s /\ (exists ty, taproot_type_of_input (snd s) ty) /\ Exists vout_out_of_bounds (spends p)).
Proof.
  intros X T p n t leaf. split.
  - intros H. pose proof (taproot0_panic _ _ _ _ H) as (a & s' & Hs' & Ho). rewrite taproot0_slot in H.
    destruct (slot0 p n) as [[s u]|e|] eqn:E; cbn [bind fst snd] in H; [|discriminate|].
    + apply slot0_ok in E as [Hs Hu]. exists s. split; [exact Hs|]. right.
      destruct (kind0 (s, u)) as [[]|] eqn:K; try discriminate. unfold kind0 in K. apply tr_kind in K as (k & K).
      split; [exists u, k; auto|]. destruct (input0_taproot_hash_ty (snd s)) as [ty|] eqn:Et; [|discriminate].
      split; [exists (tap_num ty); apply taproot_ty_iff; eauto|]. apply Exists_exists. exists s'. split; [|exact Ho]. apply spend_at_in. eauto.
    + apply slot0_panic in E as (s & Hs & Hso). eauto.
  - intros (s & Hs & [Ho|((u & k & Hu & Hk) & (ty & Hty) & He)]); rewrite taproot0_slot.
    + rewrite (proj2 (slot0_panic p n)) by eauto. reflexivity.
    + rewrite (proj2 (slot0_ok p n s u)) by auto. cbn [bind fst snd].
      assert (K : kind0 (s, u) = Some Tr) by (apply tr_kind; eauto). rewrite K.
      apply taproot_ty_iff in Hty as (t' & -> & _). cbn [ok_or bind].
      apply Exists_exists in He as (s' & Hi & Ho). apply spend_at_in in Hi as (m & Hm).
      rewrite (spend_utxos_panics p _ m s'); [reflexivity| |exact Hm|exact Ho].
      apply indices0_in. apply spend_at_lt in Hm as [Hm _]. exact Hm.
Qed.
Print Assumptions C87_panic_iff.

(** The second input gives a transaction without outputs; signing the first panics. *)
Example C87_panic_example :
  let bad := set_i0_non_witness_utxo (Some (Tx 2 0 [] [])) input0_default in
  psbt0_sighash_taproot (ex0_of [ex0_tr; bad]) 0 (p0_unsigned_tx (ex0_of [ex0_tr; bad])) None = Panic
  /\ psbt0_sighash_taproot (ex0_of [ex0_tr; ex0_wpkh]) 0 (p0_unsigned_tx (ex0_of [ex0_tr; ex0_wpkh])) None <> Panic.
Proof. split; [vm_compute; reflexivity|vm_compute; discriminate]. Qed.
