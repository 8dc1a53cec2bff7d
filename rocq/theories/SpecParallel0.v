(** Specification of several signers and combiners working on one v0 PSBT (BIP-174: signers and
    combiners in any order), independent of the code's helpers. *)
From Verif Require Import Base OMap Consensus Ext Serialize V2Sign SpecSign V0Input V0Psbt V0Sign SpecSign0.
Local Open Scope N_scope.

Section Parallel.
Context `{X : Ext} `{S : SignExt} `{T : SchnorrExt}.

(** What can be made of [p] when [ks] sign, in any way of passing the PSBT around: a signer
    signs what another made, or a combiner puts two copies together. *)
Inductive made (p : psbt0) : list provider -> psbt0 -> Prop :=
| MadeStart : made p [] p
| MadeSign k ks q r used errs : made p ks q -> psbt0_sign k q = Ok (r, used, errs) -> made p (k :: ks) r
| MadeCombine ks ks' q q' r : made p ks q -> made p ks' q' -> psbt0_combine q q' = Ok r -> made p (ks ++ ks') r.

(** Two signers do not contradict each other: keys with the same public key are the same, and
    for a taproot key they use the same key. *)
Record in_agreement (p : psbt0) (k k' : provider) : Prop := {
  ia_ecdsa : forall i sks sks' a b, In i (p0_inputs p) ->
    keys_for k (i0_bip32_derivation i) sks -> keys_for k' (i0_bip32_derivation i) sks' ->
    In a sks -> In b sks' -> public_of a = public_of b -> pv_secret a = pv_secret b;
  ia_taproot : forall i x lhs src a b, In i (p0_inputs p) -> In (x, (lhs, src)) (i0_tap_key_origins i) ->
    k (KRBip32 src) = inr (Some a) -> k' (KRBip32 src) = inr (Some b) -> pv_secret a = pv_secret b
}.
(** The PSBT has no other signature under a key of the signer. *)
Definition no_old_signature0 (k : provider) (p : psbt0) : Prop :=
  forall n s sks m ty pk g, spend_at p n s -> keys_for k (i0_bip32_derivation (snd s)) sks ->
    to_sign0 p (p0_unsigned_tx p) n m ty -> In pk (map public_of sks) ->
    m_get sk_pubkey pk (i0_partial_sigs (snd s)) = Some g -> signature_by sks m ty pk g.
Record team (p : psbt0) (ks : list provider) : Prop := {
  tm_agree : forall k k', In k ks -> In k' ks -> in_agreement p k k';
  tm_fresh : forall k, In k ks -> no_old_signature0 k p
}.

End Parallel.
