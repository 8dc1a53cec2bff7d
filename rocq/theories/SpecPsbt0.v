(** Specification of v0 PSBTs (BIP-174, BIP-371): well-formed values and equality,
    independent of the serialization code. *)
From Verif Require Import Base OMap Consensus Ext Raw TapTree TapTreeFacts Serialize SpecCodec V2Global V2Psbt SpecPsbt
  V0Input V0Output V0Psbt.
Local Open Scope N_scope.

(** ** Key types *)

(** Key types of BIP-174/371 for each map of a version 0 PSBT, without the proprietary
    type 0xFC. *)
Definition global0_type (t : byte) : bool := existsb (beq t) [x00; x01; xfb].
Definition input0_type (t : byte) : bool :=
  existsb (beq t) [x00; x01; x02; x03; x04; x05; x06; x07; x08; x0a; x0b; x0c; x0d;
                   x13; x14; x15; x16; x17; x18].
Definition output0_type_key (t : byte) : bool := existsb (beq t) [x00; x01; x02; x05; x06; x07].
(** Key types that BIP-370 adds for version 2 and forbids in version 0. *)
Definition global_v2_type (t : byte) : bool := existsb (beq t) [x02; x03; x04; x05; x06].
Definition input_v2_type (t : byte) : bool := existsb (beq t) [x0e; x0f; x10; x11; x12].
Definition output_v2_type (t : byte) : bool := existsb (beq t) [x03; x04].

(** Keys of an unknown pair. *)
Definition unknown_key0 (known v2 : byte -> bool) (k : key) : Prop :=
  wf_key k /\ known (k_type k) = false /\ v2 (k_type k) = false /\ proprietary_type (k_type k) = false.

(** ** Well-formed values *)
Section Spec.
Context `{X : Ext}.

Record wf_input0 (i : input0) : Prop := {
  wi0_non_witness_utxo : opt_of wf_tx_v (i0_non_witness_utxo i);
  wi0_witness_utxo : opt_of wf_txout_v (i0_witness_utxo i);
  wi0_partial_sigs : map_of sk_pubkey wf_pubkey wf_esig (i0_partial_sigs i);
  wi0_sighash : opt_of wf_u32 (i0_sighash_type i);
  wi0_redeem : opt_of wf_value (i0_redeem_script i);
  wi0_witness_script : opt_of wf_value (i0_witness_script i);
  wi0_bip32 : map_of bkey wf_secp wf_keysource (i0_bip32_derivation i);
  wi0_final_sig : opt_of wf_value (i0_final_script_sig i);
  wi0_final_wit : opt_of wf_witness_v (i0_final_script_witness i);
  wi0_ripemd160 : preimages 20 ripemd160 (i0_ripemd160_preimages i);
  wi0_sha256 : preimages 32 sha256 (i0_sha256_preimages i);
  wi0_hash160 : preimages 20 hash160 (i0_hash160_preimages i);
  wi0_hash256 : preimages 32 sha256d (i0_hash256_preimages i);
  wi0_tap_key_sig : opt_of wf_tsig (i0_tap_key_sig i);
  wi0_tap_script_sigs : map_of sk_xleaf wf_xleaf wf_tsig (i0_tap_script_sigs i);
  wi0_tap_scripts : map_of sk_controlblock wf_controlblock wf_leafscript (i0_tap_scripts i);
  wi0_tap_key_origins : map_of bkey wf_xonly wf_taporigin (i0_tap_key_origins i);
  wi0_tap_internal_key : opt_of wf_xonly (i0_tap_internal_key i);
  wi0_tap_merkle_root : opt_of (fun h : bytes => length h = 32%nat) (i0_tap_merkle_root i);
  wi0_props : map_of sk_propkey wf_propkey wf_value (i0_proprietary i);
  wi0_unknown : map_of sk_key (unknown_key0 input0_type input_v2_type) wf_value (i0_unknown i)
}.

Record wf_output0 (o : output0) : Prop := {
  wo0_redeem : opt_of wf_value (o0_redeem_script o);
  wo0_witness_script : opt_of wf_value (o0_witness_script o);
  wo0_bip32 : map_of bkey wf_secp wf_keysource (o0_bip32_derivation o);
  wo0_tap_internal_key : opt_of wf_xonly (o0_tap_internal_key o);
  wo0_tap_tree : opt_of wf_taptree (o0_tap_tree o);
  wo0_tap_key_origins : map_of bkey wf_xonly wf_taporigin (o0_tap_key_origins o);
  wo0_props : map_of sk_propkey wf_propkey wf_value (o0_proprietary o);
  wo0_unknown : map_of sk_key (unknown_key0 output0_type_key output_v2_type) wf_value (o0_unknown o)
}.

(** A transaction nobody has signed: no scriptSig, no witness. *)
Definition unsigned (t : tx) : Prop :=
  Forall (fun i => ti_script_sig i = [] /\ ti_witness i = []) (tx_input t).

(** Bytes that a pair takes on the wire, from the sizes of key data and value. *)
Definition pair_size (k v : N) : N := varint_size (k + 1) + 1 + k + varint_size v + v.
(** Bytes of the global map: unsigned transaction, xpubs (78 bytes; fingerprint and path),
    proprietary and unknown pairs, separator. *)
Definition propkey_size (k : propkey) : N :=
  varint_size (blen (pk_prefix k)) + blen (pk_prefix k) + 1 + blen (pk_key k).
Definition sum_size {A} (f : A -> N) (l : list A) : N := fold_right (fun a n => f a + n) 0 l.
Definition global0_size (p : psbt0) : N :=
  pair_size 0 (tx_base_size (p0_unsigned_tx p))
  + sum_size (fun xk : xpub * keysource => pair_size 78 (4 + 4 * blen (ks_path (snd xk)))) (p0_xpub p)
  + sum_size (fun kv : propkey * bytes => pair_size (propkey_size (fst kv)) (blen (snd kv))) (p0_proprietary p)
  + sum_size (fun kv : key * bytes => pair_size (blen (k_data (fst kv))) (blen (snd kv))) (p0_unknown p)
  + 1.

(** A version 0 PSBT for an unsigned transaction, one map per input and output, all
    within the size limits of the decoder. *)
Record wf_psbt0 (p : psbt0) : Prop := {
  wp0_tx : wf_tx (p0_unsigned_tx p);
  wp0_unsigned : unsigned (p0_unsigned_tx p);
  wp0_tx_size : tx_base_size (p0_unsigned_tx p) <= MAX_VALUE;
  wp0_version : p0_version p = 0;
  wp0_xpub : map_of sk_xpub wf_xpub wf_keysource (p0_xpub p);
  wp0_props : map_of sk_propkey wf_propkey wf_value (p0_proprietary p);
  wp0_unknown : map_of sk_key (unknown_key0 global0_type global_v2_type) wf_value (p0_unknown p);
  wp0_size : global0_size p <= 4000000;
  wp0_inputs : Forall wf_input0 (p0_inputs p);
  wp0_outputs : Forall wf_output0 (p0_outputs p);
  wp0_input_count : length (p0_inputs p) = length (tx_input (p0_unsigned_tx p));
  wp0_output_count : length (p0_outputs p) = length (tx_output (p0_unsigned_tx p))
}.

(** ** Equality as Rust's [==] sees it: tap trees are compared by their root hash. *)
Definition output0_eq (a b : output0) : Prop :=
  option_map ni_hash (o0_tap_tree a) = option_map ni_hash (o0_tap_tree b) /\
  set_o0_tap_tree None a = set_o0_tap_tree None b.
Definition psbt0_eq (p q : psbt0) : Prop :=
  set_p0_outputs [] p = set_p0_outputs [] q /\ Forall2 output0_eq (p0_outputs p) (p0_outputs q).

(** No two sibling subtrees of a tap tree of the PSBT hash to the same value. *)
Definition no_tap_ties0 (p : psbt0) : Prop :=
  Forall (fun o => opt_of (fun t => exists sh, wf_shape sh /\ no_tie sh /\ node_of sh = Some t) (o0_tap_tree o))
         (p0_outputs p).

(** [lg], [lis], [los] are the maps of a byte string that decodes to [p]; bytes may follow. *)
Definition maps0_of (bs : bytes) (p : psbt0) (lg : list pair) (lis los : list (list pair)) : Prop :=
  exists w t, bs = w ++ t /\ psbt_wire lg lis los w
    /\ length lis = length (p0_inputs p) /\ length los = length (p0_outputs p).

End Spec.
