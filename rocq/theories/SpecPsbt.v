(** Specification of PSBTs (BIP-174, BIP-370): wire format, well-formed values and
    equality, independent of the serialization code. *)
From Coq Require Import Permutation.
From Verif Require Import Base OMap Consensus Ext Raw TapTree TapTreeFacts Serialize SpecCodec V2Global V2Input V2Output V2Psbt.
Local Open Scope N_scope.

(** <psbt> := <magic> <global-map> <input-map>* <output-map>*, each map a list of pairs. *)
Definition psbt_wire (lg : list pair) (lis los : list (list pair)) (b : bytes) : Prop :=
  exists bg bis bos,
    map_wire lg bg /\ Forall2 map_wire lis bis /\ Forall2 map_wire los bos /\
    b = [x70; x73; x62; x74; xff] ++ bg ++ concat bis ++ concat bos.

(** [lg], [lis], [los] are the maps of a byte string that decodes to [p]; bytes may follow. *)
Definition maps_of (bs : bytes) (p : psbt) (lg : list pair) (lis los : list (list pair)) : Prop :=
  exists w t, bs = w ++ t /\ psbt_wire lg lis los w
    /\ length lis = length (p_inputs p) /\ length los = length (p_outputs p).

(** ** Key types *)
Section Spec.
Context `{X : Ext} `{C : Cfg}.

(** Key types of BIP-174/370/371 (and, with the feature, BIP-375) for each map, without
    the proprietary type 0xFC. *)
Definition global_type (t : byte) : bool :=
  existsb (beq t) [x01; x02; x03; x04; x05; x06; xfb] || feat_sp && existsb (beq t) [x07; x08].
Definition input_type (t : byte) : bool :=
  existsb (beq t) [x00; x01; x02; x03; x04; x05; x06; x07; x08; x0a; x0b; x0c; x0d; x0e; x0f;
                   x10; x11; x12; x13; x14; x15; x16; x17; x18]
  || feat_sp && existsb (beq t) [x1d; x1e].
Definition output_type_key (t : byte) : bool :=
  existsb (beq t) [x00; x01; x02; x03; x04; x05; x06; x07] || feat_sp && existsb (beq t) [x09; x0a].
Definition proprietary_type (t : byte) : bool := beq t xfc.
(** The pairs a map does not interpret. *)
Definition raw_pair (known : byte -> bool) (p : pair) : bool := negb (known (k_type (p_key p))).

(** ** Well-formed values *)

(** A [BTreeMap]: sorted by key, without repetition; keys and values satisfy predicates. *)
Definition map_of {K V} (sk : K -> list N) (wfk : K -> Prop) (wfv : V -> Prop) (m : list (K * V)) : Prop :=
  m_sorted sk m /\ Forall (fun kv => wfk (fst kv) /\ wfv (snd kv)) m.
(** An optional field. *)
Definition opt_of {A} (wf : A -> Prop) (o : option A) : Prop :=
  match o with Some a => wf a | None => True end.
(** A field of the silent payments feature. *)
Definition sp_field {A} (wf : A -> Prop) (empty a : A) : Prop :=
  if feat_sp then wf a else a = empty.
(** Preimages: each value hashes to its key. *)
Definition preimages (n : nat) (h : bytes -> bytes) (m : list (bytes * bytes)) : Prop :=
  map_of bkey (fun k => length k = n) wf_value m /\ Forall (fun kv => h (snd kv) = fst kv) m.
(** Keys of an unknown pair: size limit and a type that is not interpreted. *)
Definition unknown_key (known : byte -> bool) (k : key) : Prop :=
  wf_key k /\ known (k_type k) = false /\ proprietary_type (k_type k) = false.

Record wf_global (g : global) : Prop := {
  wg_version : g_version g = 2;
  wg_tx_version : wf_u32 (g_tx_version g);
  wg_fallback : opt_of wf_u32 (g_fallback_lock_time g);
  wg_flags : g_tx_modifiable_flags g < 256;
  wg_input_count : wf_u64 (g_input_count g);
  wg_output_count : wf_u64 (g_output_count g);
  wg_xpubs : map_of sk_xpub wf_xpub wf_keysource (g_xpubs g);
  wg_shares : sp_field (map_of bkey wf_secp wf_secp) [] (g_sp_ecdh_shares g);
  wg_proofs : sp_field (map_of bkey wf_secp wf_dleq) [] (g_sp_dleq_proofs g);
  wg_sp : g_sp_ecdh_shares g = [] <-> g_sp_dleq_proofs g = [];
  wg_props : map_of sk_propkey wf_propkey wf_value (g_proprietaries g);
  wg_unknowns : map_of sk_key (fun k => unknown_key global_type k /\ k_type k <> x00) wf_value
                  (g_unknowns g)
}.

Record wf_input (i : input) : Prop := {
  wi_txid : length (in_previous_txid i) = 32%nat;
  wi_txid_nonzero : in_previous_txid i <> repeat x00 32;
  wi_index : in_spent_output_index i < 2 ^ 32 - 1;
  wi_sequence : opt_of wf_u32 (in_sequence i);
  wi_min_time : opt_of wf_time (in_min_time i);
  wi_min_height : opt_of wf_height (in_min_height i);
  wi_non_witness_utxo : opt_of wf_tx_v (in_non_witness_utxo i);
  wi_witness_utxo : opt_of wf_txout_v (in_witness_utxo i);
  wi_partial_sigs : map_of sk_pubkey wf_pubkey wf_esig (in_partial_sigs i);
  wi_sighash : opt_of wf_u32 (in_sighash_type i);
  wi_redeem : opt_of wf_value (in_redeem_script i);
  wi_witness_script : opt_of wf_value (in_witness_script i);
  wi_bip32 : map_of bkey wf_secp wf_keysource (in_bip32_derivations i);
  wi_final_sig : opt_of wf_value (in_final_script_sig i);
  wi_final_wit : opt_of wf_witness_v (in_final_script_witness i);
  wi_ripemd160 : preimages 20 ripemd160 (in_ripemd160_preimages i);
  wi_sha256 : preimages 32 sha256 (in_sha256_preimages i);
  wi_hash160 : preimages 20 hash160 (in_hash160_preimages i);
  wi_hash256 : preimages 32 sha256d (in_hash256_preimages i);
  wi_tap_key_sig : opt_of wf_tsig (in_tap_key_sig i);
  wi_tap_script_sigs : map_of sk_xleaf wf_xleaf wf_tsig (in_tap_script_sigs i);
  wi_tap_scripts : map_of sk_controlblock wf_controlblock wf_leafscript (in_tap_scripts i);
  wi_tap_key_origins : map_of bkey wf_xonly wf_taporigin (in_tap_key_origins i);
  wi_tap_internal_key : opt_of wf_xonly (in_tap_internal_key i);
  wi_tap_merkle_root : opt_of (fun h : bytes => length h = 32%nat) (in_tap_merkle_root i);
  wi_shares : sp_field (map_of bkey wf_secp wf_secp) [] (in_sp_ecdh_shares i);
  wi_proofs : sp_field (map_of bkey wf_secp wf_dleq) [] (in_sp_dleq_proofs i);
  wi_sp : in_sp_ecdh_shares i = [] <-> in_sp_dleq_proofs i = [];
  wi_props : map_of sk_propkey wf_propkey wf_value (in_proprietaries i);
  wi_unknowns : map_of sk_key (unknown_key input_type) wf_value (in_unknowns i)
}.

Record wf_output (o : output) : Prop := {
  wo_amount : wf_u64 (out_amount o);
  wo_amount_nonzero : out_amount o <> 0;
  wo_script : wf_value (out_script_pubkey o);
  (* with silent payments the script may be filled in later *)
  wo_script_nonempty : feat_sp = false -> out_script_pubkey o <> [];
  wo_redeem : opt_of wf_value (out_redeem_script o);
  wo_witness_script : opt_of wf_value (out_witness_script o);
  wo_bip32 : map_of bkey wf_secp wf_keysource (out_bip32_derivations o);
  wo_tap_internal_key : opt_of wf_xonly (out_tap_internal_key o);
  wo_tap_tree : opt_of wf_taptree (out_tap_tree o);
  wo_tap_key_origins : map_of bkey wf_xonly wf_taporigin (out_tap_key_origins o);
  wo_info : sp_field (opt_of (fun b : bytes => length b = 66%nat)) None (out_sp_v0_info o);
  wo_label : sp_field (opt_of wf_u32) None (out_sp_v0_label o);
  wo_sp : out_sp_v0_label o <> None -> out_sp_v0_info o <> None;
  wo_props : map_of sk_propkey wf_propkey wf_value (out_proprietaries o);
  wo_unknowns : map_of sk_key (unknown_key output_type_key) wf_value (out_unknowns o)
}.

(** A PSBT that fits in memory and whose counts are right. *)
Record wf_psbt (p : psbt) : Prop := {
  wp_global : wf_global (p_global p);
  wp_inputs : Forall wf_input (p_inputs p);
  wp_outputs : Forall wf_output (p_outputs p);
  wp_input_count : g_input_count (p_global p) = blen (p_inputs p);
  wp_output_count : g_output_count (p_global p) = blen (p_outputs p);
  wp_inputs_fit : blen (p_inputs p) * size_input <= ISIZE_MAX;
  wp_outputs_fit : blen (p_outputs p) * size_output <= ISIZE_MAX
}.

(** ** Equality of PSBTs as Rust's [==] sees it: tap trees are compared by their root
    hash (rust-bitcoin's [NodeInfo]), everything else is compared exactly. *)
Definition output_eq (a b : output) : Prop :=
  option_map ni_hash (out_tap_tree a) = option_map ni_hash (out_tap_tree b) /\
  set_out_tap_tree None a = set_out_tap_tree None b.
Definition psbt_eq (p q : psbt) : Prop :=
  p_global p = p_global q /\ p_inputs p = p_inputs q /\ Forall2 output_eq (p_outputs p) (p_outputs q).

(** No two sibling subtrees of a tap tree of the PSBT hash to the same value. *)
Definition no_tap_ties (p : psbt) : Prop :=
  Forall (fun o => opt_of (fun t => exists sh, wf_shape sh /\ no_tie sh /\ node_of sh = Some t) (out_tap_tree o))
         (p_outputs p).

End Spec.

(** ** Pairs of a map *)

(** Two pairs of the list with the same key: the earlier one satisfies [exc]. *)
Definition distinct_keys_except (exc : pair -> Prop) (l : list pair) : Prop :=
  forall i j p q, (i < j)%nat -> nth_error l i = Some p -> nth_error l j = Some q ->
    p_key p = p_key q -> exc p.

(** [l'] has the pairs of [l] in another order, but the pairs of each of the types [ts]
    taken together come in the same order, unless they occur at most once. *)
Definition reordered (tss : list (list byte)) (l l' : list pair) : Prop :=
  Permutation l l' /\
  forall ts, In ts tss ->
    let sel p := existsb (beq (k_type (p_key p))) ts in
    (length (filter sel l) <= 1)%nat \/ filter sel l = filter sel l'.

(** The pairs that may be repeated: the input count of the global map, and a previous
    txid, output index, amount or script equal to the value that the decoder uses for
    "not seen yet". *)
Definition dup_output (p : pair) : Prop :=
  k_type (p_key p) = x03 /\ p_value p = repeat x00 8 \/ k_type (p_key p) = x04 /\ p_value p = [].
Definition dup_input (p : pair) : Prop :=
  k_type (p_key p) = x0e /\ p_value p = repeat x00 32 \/ k_type (p_key p) = x0f /\ p_value p = repeat xff 4.
Definition dup_global (p : pair) : Prop := k_type (p_key p) = x04.

(** [l] has a pair of type [t] whose value starts with the compact size [n]. *)
Definition has_count (l : list pair) (t : byte) (n : N) : Prop :=
  exists p c x, In p l /\ k_type (p_key p) = t /\ compact_size n c /\ p_value p = c ++ x.
