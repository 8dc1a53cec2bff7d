(** Specification of combining (BIP-174 Combiner and the documentation of
    src/v2/map/global.rs:415-424), independent of the combining code. *)
From Verif Require Import Base OMap Consensus Ext Raw Serialize MapCodec V2Global V2Input V2Output V2Psbt SpecPsbt.
Local Open Scope N_scope.

(** Keys of a list of pairs. *)
Definition keys (l : list pair) : list key := map p_key l.
(** No key has different values in the two maps. *)
Definition no_conflict (l l' : list pair) : Prop :=
  forall p q, In p l -> In q l' -> p_key p = p_key q -> p_value p = p_value q.

(** ** Xpubs *)
Definition suffix {A} (s l : list A) : Prop := exists pre, l = pre ++ s.

(** The documented result for an xpub with key sources [a] and [b]; [None] is an error. *)
Inductive doc_merge (a b : keysource) : option keysource -> Prop :=
| DMEqual : a = b -> doc_merge a b (Some a)
| DMFirst : (length (ks_path b) < length (ks_path a))%nat -> suffix (ks_path b) (ks_path a) -> doc_merge a b (Some a)
| DMSecond : (length (ks_path a) < length (ks_path b))%nat -> suffix (ks_path a) (ks_path b) -> doc_merge a b (Some b)
| DMFingerprint : ks_path a = ks_path b -> ks_fp a <> ks_fp b -> doc_merge a b None
| DMSameLength : length (ks_path a) = length (ks_path b) -> ks_path a <> ks_path b -> doc_merge a b None
| DMNotSuffixFirst :
    (length (ks_path b) < length (ks_path a))%nat -> ~ suffix (ks_path b) (ks_path a) -> doc_merge a b None
| DMNotSuffixSecond :
    (length (ks_path a) < length (ks_path b))%nat -> ~ suffix (ks_path a) (ks_path b) -> doc_merge a b None.

(** One path is a suffix of the other. *)
Definition nested (a b : keysource) : Prop := suffix (ks_path a) (ks_path b) \/ suffix (ks_path b) (ks_path a).
(** The case in which the code panics: the second path is shorter and not a suffix. *)
Definition short_second (a b : keysource) : Prop :=
  (length (ks_path b) < length (ks_path a))%nat /\ ~ suffix (ks_path b) (ks_path a).

(** ** Fields with a single value, by key type (BIP-174, BIP-370, BIP-371, BIP-375).
    Of two values the first is kept; all other pairs belong to maps, of two values for
    the same key the second is kept. *)
Definition single_global : list byte := [xfb; x02; x03; x04; x05; x06].
Definition single_input : list byte :=
  [x00; x01; x03; x04; x05; x07; x08; x0e; x0f; x10; x11; x12; x13; x17; x18].
Definition single_output (sp : bool) : list byte :=
  [x00; x01; x03; x04; x05; x06] ++ if sp then [x09; x0a] else [].

Section Spec.
Context `{X : Ext} `{C : Cfg}.

(** ** What a [BTreeMap] guarantees: all maps of the PSBT are sorted. *)
Record sorted_global (g : global) : Prop := {
  sg_xpubs : m_sorted sk_xpub (g_xpubs g);
  sg_shares : m_sorted bkey (g_sp_ecdh_shares g);
  sg_proofs : m_sorted bkey (g_sp_dleq_proofs g);
  sg_props : m_sorted sk_propkey (g_proprietaries g);
  sg_unknowns : m_sorted sk_key (g_unknowns g)
}.
Record sorted_input (i : input) : Prop := {
  si_partial_sigs : m_sorted sk_pubkey (in_partial_sigs i);
  si_bip32 : m_sorted bkey (in_bip32_derivations i);
  si_ripemd160 : m_sorted bkey (in_ripemd160_preimages i);
  si_sha256 : m_sorted bkey (in_sha256_preimages i);
  si_hash160 : m_sorted bkey (in_hash160_preimages i);
  si_hash256 : m_sorted bkey (in_hash256_preimages i);
  si_tap_script_sigs : m_sorted sk_xleaf (in_tap_script_sigs i);
  si_tap_scripts : m_sorted sk_controlblock (in_tap_scripts i);
  si_tap_key_origins : m_sorted bkey (in_tap_key_origins i);
  si_shares : m_sorted bkey (in_sp_ecdh_shares i);
  si_proofs : m_sorted bkey (in_sp_dleq_proofs i);
  si_props : m_sorted sk_propkey (in_proprietaries i);
  si_unknowns : m_sorted sk_key (in_unknowns i)
}.
Record sorted_output (o : output) : Prop := {
  so_bip32 : m_sorted bkey (out_bip32_derivations o);
  so_tap_key_origins : m_sorted bkey (out_tap_key_origins o);
  so_props : m_sorted sk_propkey (out_proprietaries o);
  so_unknowns : m_sorted sk_key (out_unknowns o)
}.
Definition sorted_psbt (p : psbt) : Prop :=
  sorted_global (p_global p) /\ Forall sorted_input (p_inputs p) /\ Forall sorted_output (p_outputs p).

(** ** Fields that [combine] does not merge *)

(** The first PSBT has no witness utxo and the second has: then the non-witness utxo is
    dropped. *)
Definition utxo_switch (i j : input) : Prop := in_witness_utxo i = None /\ in_witness_utxo j <> None.

(** Keys of the first input that may be lost, and keys of the second. *)
Definition lost_first (i j : input) (k : key) : Prop := k_type k = x00 /\ utxo_switch i j.
Definition lost_second (i j : input) (k : key) : Prop :=
  k_type k = x00 /\ utxo_switch i j \/ k_type k = x03 /\ in_sighash_type i = None.

(** Inputs, outputs and global maps for which the order does not matter: no key has
    two values, and the fields above are of no relevance. *)
Definition compatible_inputs (i j : input) : Prop :=
  no_conflict (input_pairs i) (input_pairs j) /\
  (in_sighash_type i = None <-> in_sighash_type j = None) /\
  (utxo_switch i j \/ utxo_switch j i -> in_non_witness_utxo i = None /\ in_non_witness_utxo j = None).
Definition compatible_outputs (o o' : output) : Prop := no_conflict (output_pairs o) (output_pairs o').
Definition compatible_globals (g h : global) : Prop :=
  no_conflict (global_pairs g) (global_pairs h) /\
  (g_fallback_lock_time g = None <-> g_fallback_lock_time h = None).
Definition compatible (p q : psbt) : Prop :=
  compatible_globals (p_global p) (p_global q) /\
  Forall2 compatible_inputs (p_inputs p) (p_inputs q) /\
  Forall2 compatible_outputs (p_outputs p) (p_outputs q).

End Spec.
