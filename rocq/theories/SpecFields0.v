(** The key types and value formats of BIP-174 and BIP-371 for version 0, written down field
    by field and independently of the encoder: which pairs a map consists of. *)
From Verif Require Import Base OMap Consensus Ext Raw TapTree Serialize MapCodec V0Input V0Output V0Psbt
  SpecTx SpecFields.
Local Open Scope N_scope.

Section Fields.
Context `{X : Ext}.

Inductive global0_field (p : psbt0) : pair -> Prop :=
| G0_unsigned_tx b : legacy_wire (p0_unsigned_tx p) b -> global0_field p (field x00 [] b)
| G0_xpub x k : In (x, k) (p0_xpub p) -> global0_field p (field x01 (xpub_key_bytes x) (origin_bytes k))
| G0_version : p0_version p <> 0 -> global0_field p (field xfb [] (le32 (p0_version p)))
| G0_proprietary k v : In (k, v) (p0_proprietary p) -> global0_field p (field xfc (prop_key_bytes k) v)
| G0_unknown k v : In (k, v) (p0_unknown p) -> global0_field p (Pair k v).

Inductive input0_field (i : input0) : pair -> Prop :=
| I0_non_witness_utxo t b : i0_non_witness_utxo i = Some t -> tx_wire t b -> input0_field i (field x00 [] b)
| I0_witness_utxo u b : i0_witness_utxo i = Some u -> txout_wire u b -> input0_field i (field x01 [] b)
| I0_partial_sig k s b : In (k, s) (i0_partial_sigs i) -> pubkey_bytes k b -> input0_field i (field x02 b (esig_bytes s))
| I0_sighash n : i0_sighash_type i = Some n -> input0_field i (field x03 [] (le32 n))
| I0_redeem s : i0_redeem_script i = Some s -> input0_field i (field x04 [] s)
| I0_witness_script s : i0_witness_script i = Some s -> input0_field i (field x05 [] s)
| I0_bip32 k o : In (k, o) (i0_bip32_derivation i) -> input0_field i (field x06 k (origin_bytes o))
| I0_script_sig s : i0_final_script_sig i = Some s -> input0_field i (field x07 [] s)
| I0_script_witness w b : i0_final_script_witness i = Some w -> witness_wire w b -> input0_field i (field x08 [] b)
| I0_ripemd160 h p : In (h, p) (i0_ripemd160_preimages i) -> input0_field i (field x0a h p)
| I0_sha256 h p : In (h, p) (i0_sha256_preimages i) -> input0_field i (field x0b h p)
| I0_hash160 h p : In (h, p) (i0_hash160_preimages i) -> input0_field i (field x0c h p)
| I0_hash256 h p : In (h, p) (i0_hash256_preimages i) -> input0_field i (field x0d h p)
| I0_tap_sig s b : i0_tap_key_sig i = Some s -> tsig_bytes s b -> input0_field i (field x13 [] b)
| I0_tap_script_sig x h s b : In ((x, h), s) (i0_tap_script_sigs i) -> tsig_bytes s b -> input0_field i (field x14 (x ++ h) b)
| I0_tap_leaf c s v : In (c, (s, v)) (i0_tap_scripts i) ->
    input0_field i (field x15 (n2b (cb_ver c + if cb_parity c then 1 else 0) :: cb_internal c ++ cb_branch c) (s ++ [n2b v]))
| I0_tap_bip32 k o : In (k, o) (i0_tap_key_origins i) -> input0_field i (field x16 k (tap_origin_bytes o))
| I0_tap_internal k : i0_tap_internal_key i = Some k -> input0_field i (field x17 [] k)
| I0_tap_root h : i0_tap_merkle_root i = Some h -> input0_field i (field x18 [] h)
| I0_proprietary k v : In (k, v) (i0_proprietary i) -> input0_field i (field xfc (prop_key_bytes k) v)
| I0_unknown k v : In (k, v) (i0_unknown i) -> input0_field i (Pair k v).

Inductive output0_field (o : output0) : pair -> Prop :=
| O0_redeem s : o0_redeem_script o = Some s -> output0_field o (field x00 [] s)
| O0_witness_script s : o0_witness_script o = Some s -> output0_field o (field x01 [] s)
| O0_bip32 k d : In (k, d) (o0_bip32_derivation o) -> output0_field o (field x02 k (origin_bytes d))
| O0_tap_internal k : o0_tap_internal_key o = Some k -> output0_field o (field x05 [] k)
| O0_tap_tree t : o0_tap_tree o = Some t -> output0_field o (field x06 [] (concat (map tap_leaf_bytes (ni_leaves t))))
| O0_tap_bip32 k d : In (k, d) (o0_tap_key_origins o) -> output0_field o (field x07 k (tap_origin_bytes d))
| O0_proprietary k v : In (k, v) (o0_proprietary o) -> output0_field o (field xfc (prop_key_bytes k) v)
| O0_unknown k v : In (k, v) (o0_unknown o) -> output0_field o (Pair k v).

End Fields.
