(** Specification of combining version 0 PSBTs (BIP-174 Combiner), independent of the
    combining code; the parts common with version 2 are in SpecCombine.v. *)
From Verif Require Import Base OMap Consensus Ext Raw Serialize MapCodec V2Global SpecPsbt SpecCombine
  V0Input V0Output V0Psbt SpecPsbt0.
Local Open Scope N_scope.

(** Fields with a single value, by key type (BIP-174, BIP-371). *)
Definition single_global0 : list byte := [x00; xfb].
Definition single_input0 : list byte := [x00; x01; x03; x04; x05; x07; x08; x13; x17; x18].
Definition single_output0 : list byte := [x00; x01; x05; x06].

Section Spec.
Context `{X : Ext}.

(** ** What a [BTreeMap] guarantees: all maps of the PSBT are sorted. *)
Record sorted_input0 (i : input0) : Prop := {
  si0_partial_sigs : m_sorted sk_pubkey (i0_partial_sigs i);
  si0_bip32 : m_sorted bkey (i0_bip32_derivation i);
  si0_ripemd160 : m_sorted bkey (i0_ripemd160_preimages i);
  si0_sha256 : m_sorted bkey (i0_sha256_preimages i);
  si0_hash160 : m_sorted bkey (i0_hash160_preimages i);
  si0_hash256 : m_sorted bkey (i0_hash256_preimages i);
  si0_tap_script_sigs : m_sorted sk_xleaf (i0_tap_script_sigs i);
  si0_tap_scripts : m_sorted sk_controlblock (i0_tap_scripts i);
  si0_tap_key_origins : m_sorted bkey (i0_tap_key_origins i);
  si0_props : m_sorted sk_propkey (i0_proprietary i);
  si0_unknowns : m_sorted sk_key (i0_unknown i)
}.
Record sorted_output0 (o : output0) : Prop := {
  so0_bip32 : m_sorted bkey (o0_bip32_derivation o);
  so0_tap_key_origins : m_sorted bkey (o0_tap_key_origins o);
  so0_props : m_sorted sk_propkey (o0_proprietary o);
  so0_unknowns : m_sorted sk_key (o0_unknown o)
}.
Record sorted_psbt0 (p : psbt0) : Prop := {
  sp0_xpub : m_sorted sk_xpub (p0_xpub p);
  sp0_props : m_sorted sk_propkey (p0_proprietary p);
  sp0_unknown : m_sorted sk_key (p0_unknown p);
  sp0_inputs : Forall sorted_input0 (p0_inputs p);
  sp0_outputs : Forall sorted_output0 (p0_outputs p)
}.

(** ** Fields that [combine] does not merge *)

(** The first PSBT has no witness utxo and the second has: then the non-witness utxo is
    dropped. *)
Definition utxo_switch0 (i j : input0) : Prop := i0_witness_utxo i = None /\ i0_witness_utxo j <> None.

(** Keys of the first input that may be lost, and keys of the second. *)
Definition lost_first0 (i j : input0) (k : key) : Prop := k_type k = x00 /\ utxo_switch0 i j.
Definition lost_second0 (i j : input0) (k : key) : Prop :=
  k_type k = x00 /\ utxo_switch0 i j \/ k_type k = x03 /\ i0_sighash_type i = None.

(** PSBTs for which the order does not matter: no key has two values, and the fields above
    are of no relevance. *)
Definition compatible_inputs0 (i j : input0) : Prop :=
  no_conflict (input0_pairs i) (input0_pairs j) /\
  (i0_sighash_type i = None <-> i0_sighash_type j = None) /\
  (utxo_switch0 i j \/ utxo_switch0 j i -> i0_non_witness_utxo i = None /\ i0_non_witness_utxo j = None).
Definition compatible_outputs0 (o o' : output0) : Prop := no_conflict (output0_pairs o) (output0_pairs o').
Definition compatible0 (p q : psbt0) : Prop :=
  no_conflict (global0_pairs p) (global0_pairs q) /\
  Forall2 compatible_inputs0 (p0_inputs p) (p0_inputs q) /\
  Forall2 compatible_outputs0 (p0_outputs p) (p0_outputs q).

End Spec.
