(** Specification of what is stored and of the whole way from an unsigned transaction to a signed one
    (BIP-174), independent of the code's helpers. *)
From Verif Require Import Base OMap Consensus Ext Raw TapTree Serialize SpecCodec SpecPsbt V2Sign SpecSign V2Finalize SpecFinalize
  V0Input V0Output V0Psbt SpecPsbt0 SpecExtract0 V0Sign SpecSign0 V0Finalize SpecFinalize0 V0Update SpecUpdate0.
Local Open Scope N_scope.

(** ** Sizes *)

(** Bytes of a taproot key origin: number of leaf hashes, leaf hashes, fingerprint and path. *)
Definition origin_size (o : taporigin) : N :=
  varint_size (blen (fst o)) + 32 * blen (fst o) + 4 + 4 * blen (ks_path (snd o)).
Definition origins_fit (l : list (bytes * taporigin)) : Prop := Forall (fun e => origin_size (snd e) <= MAX_VALUE) l.
(** Bytes of a taproot tree: for each leaf its depth, its version and its script. *)
Definition tree_size (t : dtree ddkey) : N :=
  sum_size (fun l => 2 + varint_size (blen (lf_script l)) + blen (lf_script l)) (leaves t).
Definition tree_fits (d : descr ddkey) : Prop :=
  match d with DscTr _ (Some t) => tree_size t <= MAX_VALUE | _ => True end.

(** ** Sound descriptors: points as keys, sources and scripts that fit into values *)
Section Sound.
Context `{X : Ext}.
Definition sound_key (k : ddkey) : Prop := wf_pubkey (fst k) /\ wf_xonly (x_of k) /\ wf_keysource (snd k).
Definition sound_scripts (d : descr ddkey) : Prop :=
  match d with
  | DscWsh _ s | DscSh _ s | DscShWsh _ s => wf_value s
  | DscTr _ tree => Forall (fun l => blen (lf_script l) + 1 <= MAX_VALUE) (tr_scripts tree)
  | _ => True
  end.
Definition sound (d : descr ddkey) : Prop := Forall sound_key (all_keys d) /\ sound_scripts d.
End Sound.

(** ** From an unsigned transaction to a signed one, for outputs of single keys *)
Section Workflow.
Context `{X : Ext} `{S : SignExt} `{T : SchnorrExt} `{D : DescExt}.

(** The descriptors of a single key that is used with ECDSA; segwit wants it compressed. *)
Definition single (d : descr ddkey) (k : ddkey) : Prop :=
  d = DscPkh k \/ (d = DscWpkh k \/ d = DscShWpkh k) /\ pub_compressed (fst k) = true.

(** The signer has the private key (BIP-44, BIP-49, BIP-84; BIP-86). *)
Inductive signable (prov : provider) : descr ddkey -> Prop :=
| SgEcdsa d k sk : single d k -> has_key prov (pub_inner (fst k)) (snd k) sk -> public_of sk = fst k -> signable prov d
| SgTaproot k sk : prov (KRBip32 (snd k)) = inr (Some sk) -> x_public sk = x_of k -> signable prov (DscTr k None).

(** The input has no signatures and names no keys. *)
Definition untouched (i : input0) : Prop :=
  i0_partial_sigs i = [] /\ i0_bip32_derivation i = [] /\ i0_tap_key_sig i = None /\ i0_tap_key_origins i = [].
(** The sighash type is one for the descriptor; with taproot, SINGLE needs an output. *)
Definition typed_for (t : tx) (n : N) (d : descr ddkey) (i : input0) : Prop :=
  match d with
  | DscTr _ _ => exists ty, taproot_type_of_input i ty /\ (In ty [0x03; 0x83] -> n < blen (tx_output t))
  | _ => exists ty, type_of_input0 i ty
  end.

(** Inputs are updated one after the other, in some order. *)
Inductive updates : list (N * descr dkey) -> psbt0 -> psbt0 -> Prop :=
| UpNone p : updates [] p p
| UpNext n d l p p1 p2 : update_input n d p = (p1, Ok tt) -> updates l p1 p2 -> updates ((n, d) :: l) p p2.

(** BIP-341: with ANYONECANPAY the message depends on one output, else on all. *)
Definition key_message (t : tx) (n : N) (us : list txout) (u : txout) (ty : N) : bytes :=
  if 0x80 <? ty then taproot_digest t n (PrevoutsOne n u) None ty else taproot_digest t n (PrevoutsAll us) None ty.

(** Script sig and witness with a valid signature of the right key in the right place: the signature
    of the input [n] of [t] that spends the output [u] of the descriptor, one of the outputs [us]. *)
Inductive valid_spend (t : tx) (n : N) (us : list txout) (u : txout) (i : input0) : descr ddkey -> bytes -> witness -> Prop :=
| VEcdsa d k sg ty ss w : single d k -> type_of_input0 i ty -> key_spend (fst k) (ESig sg ty) (spk_of d) ss w ->
    verify_ecdsa (pub_inner (fst k)) (digest_for d t n (to_value u) ty) sg = true -> valid_spend t n us u i d ss w
| VTaproot k sg ty : taproot_type_of_input i ty ->
    verify_schnorr (output_key (x_of k) None) (key_message t n us u ty) sg = true ->
    valid_spend t n us u i (DscTr k None) [] [ser_tsig (TSig sg ty)].

End Workflow.

(** The interpreter accepts the spend of an output of a single key whose signature verifies, and
    no DER signature is as short as a number. *)
Class KeySpendLaws (X : Ext) (S : SignExt) (T : SchnorrExt) (M : MsExt) : Prop := {
  interpret_key : forall d k s ss w t n us u sequence lock,
    single d k -> wf_pubkey (fst k) -> wf_esig s -> key_spend (fst k) s (spk_of d) ss w ->
    n < blen (tx_input t) -> length us = length (tx_input t) ->
    nth_error us (N.to_nat n) = Some u -> to_script u = spk_of d ->
    verify_ecdsa (pub_inner (fst k)) (digest_for d t n (to_value u) (es_type s)) (es_der s) = true ->
    ms_interpret (spk_of d) ss w sequence lock t n us = IOk;
  interpret_taproot : forall x g t n us u sequence lock,
    wf_tsig g -> n < blen (tx_input t) -> length us = length (tx_input t) ->
    nth_error us (N.to_nat n) = Some u -> p2tr_key (to_script u) x ->
    (In (ts_type g) [0x03; 0x83] -> n < blen (tx_output t)) ->
    verify_schnorr x (key_message t n us u (ts_type g)) (ts_sig g) = true ->
    ms_interpret (to_script u) [] [ser_tsig g] sequence lock t n us = IOk;
  sign_ecdsa_length : forall m k, (4 < length (sign_ecdsa m k))%nat
}.
