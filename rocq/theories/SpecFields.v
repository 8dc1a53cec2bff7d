(** The key types and value formats of BIP-174, BIP-370, BIP-371 and BIP-375, written down
    field by field and independently of the encoder: which pairs a map consists of. *)
From Verif Require Import Base OMap Consensus Ext Raw TapTree Serialize MapCodec V2Global V2Input V2Output V2Psbt SpecTx.
Local Open Scope N_scope.

(** Value formats. *)
Definition le32 (n : N) : bytes := le_enc 4 n.
Definition le64 (n : N) : bytes := le_enc 8 n.
(** Master fingerprint and derivation path, all indices of four bytes. *)
Definition origin_bytes (k : keysource) : bytes := ks_fp k ++ concat (map le32 (ks_path k)).
(** DER signature followed by the sighash byte. *)
Definition esig_bytes (s : esig) : bytes := es_der s ++ [n2b (es_type s)].
(** Schnorr signature, followed by the sighash byte unless that is the default. *)
Inductive tsig_bytes (s : tsig) : bytes -> Prop :=
| TSDefault : ts_type s = 0 -> tsig_bytes s (ts_sig s)
| TSOther : ts_type s <> 0 -> tsig_bytes s (ts_sig s ++ [n2b (ts_type s)]).
(** Number of leaf hashes, the hashes, then the origin. *)
Definition tap_origin_bytes (o : taporigin) : bytes :=
  enc_varint (blen (fst o)) ++ concat (fst o) ++ origin_bytes (snd o).
(** Depth, leaf version and script of every leaf. *)
Definition tap_leaf_bytes (l : tapleaf) : bytes :=
  n2b (blen (tl_branch l)) :: n2b (tl_ver l) :: enc_varint (blen (tl_script l)) ++ tl_script l.
(** Version of the extended key, depth, parent fingerprint, child number, chain code, key. *)
Definition xpub_key_bytes (x : xpub) : bytes :=
  (if xp_main x then [x04; x88; xb2; x1e] else [x04; x35; x87; xcf])
  ++ [xp_depth x] ++ xp_fp x ++ xp_child x ++ xp_cc x ++ xp_pk x.
(** Length-prefixed identifier, subtype, key. *)
Definition prop_key_bytes (k : propkey) : bytes :=
  enc_varint (blen (pk_prefix k)) ++ pk_prefix k ++ [pk_subtype k] ++ pk_key k.
Definition field (t : byte) (kd v : bytes) : pair := Pair (Key t kd) v.

Section Fields.
Context `{X : Ext} `{C : Cfg}.

(** Public keys of partial signatures keep their form. *)
Inductive pubkey_bytes (k : pubkey) : bytes -> Prop :=
| PKCompressed : pub_compressed k = true -> pubkey_bytes k (pub_inner k)
| PKUncompressed : pub_compressed k = false -> pubkey_bytes k (secp_uncompress (pub_inner k)).

Inductive global_field (g : global) : pair -> Prop :=
| GF_xpub x k : In (x, k) (g_xpubs g) -> global_field g (field x01 (xpub_key_bytes x) (origin_bytes k))
| GF_tx_version : global_field g (field x02 [] (le32 (g_tx_version g)))
| GF_fallback n : g_fallback_lock_time g = Some n -> global_field g (field x03 [] (le32 n))
| GF_input_count : global_field g (field x04 [] (enc_varint (g_input_count g)))
| GF_output_count : global_field g (field x05 [] (enc_varint (g_output_count g)))
| GF_modifiable : global_field g (field x06 [] [n2b (g_tx_modifiable_flags g)])
| GF_ecdh k v : feat_sp = true -> In (k, v) (g_sp_ecdh_shares g) -> global_field g (field x07 k v)
| GF_dleq k v : feat_sp = true -> In (k, v) (g_sp_dleq_proofs g) -> global_field g (field x08 k v)
| GF_version : global_field g (field xfb [] (le32 (g_version g)))
| GF_proprietary k v : In (k, v) (g_proprietaries g) -> global_field g (field xfc (prop_key_bytes k) v)
| GF_unknown k v : In (k, v) (g_unknowns g) -> global_field g (Pair k v).

Inductive input_field (i : input) : pair -> Prop :=
| IF_non_witness_utxo t b : in_non_witness_utxo i = Some t -> tx_wire t b -> input_field i (field x00 [] b)
| IF_witness_utxo u b : in_witness_utxo i = Some u -> txout_wire u b -> input_field i (field x01 [] b)
| IF_partial_sig k s b : In (k, s) (in_partial_sigs i) -> pubkey_bytes k b -> input_field i (field x02 b (esig_bytes s))
| IF_sighash n : in_sighash_type i = Some n -> input_field i (field x03 [] (le32 n))
| IF_redeem s : in_redeem_script i = Some s -> input_field i (field x04 [] s)
| IF_witness_script s : in_witness_script i = Some s -> input_field i (field x05 [] s)
| IF_bip32 k o : In (k, o) (in_bip32_derivations i) -> input_field i (field x06 k (origin_bytes o))
| IF_script_sig s : in_final_script_sig i = Some s -> input_field i (field x07 [] s)
| IF_script_witness w b : in_final_script_witness i = Some w -> witness_wire w b -> input_field i (field x08 [] b)
| IF_ripemd160 h p : In (h, p) (in_ripemd160_preimages i) -> input_field i (field x0a h p)
| IF_sha256 h p : In (h, p) (in_sha256_preimages i) -> input_field i (field x0b h p)
| IF_hash160 h p : In (h, p) (in_hash160_preimages i) -> input_field i (field x0c h p)
| IF_hash256 h p : In (h, p) (in_hash256_preimages i) -> input_field i (field x0d h p)
| IF_txid : input_field i (field x0e [] (in_previous_txid i))
| IF_vout : input_field i (field x0f [] (le32 (in_spent_output_index i)))
| IF_sequence n : in_sequence i = Some n -> input_field i (field x10 [] (le32 n))
| IF_time n : in_min_time i = Some n -> input_field i (field x11 [] (le32 n))
| IF_height n : in_min_height i = Some n -> input_field i (field x12 [] (le32 n))
| IF_tap_sig s b : in_tap_key_sig i = Some s -> tsig_bytes s b -> input_field i (field x13 [] b)
| IF_tap_script_sig x h s b : In ((x, h), s) (in_tap_script_sigs i) -> tsig_bytes s b -> input_field i (field x14 (x ++ h) b)
| IF_tap_leaf c s v : In (c, (s, v)) (in_tap_scripts i) ->
    input_field i (field x15 (n2b (cb_ver c + if cb_parity c then 1 else 0) :: cb_internal c ++ cb_branch c) (s ++ [n2b v]))
| IF_tap_bip32 k o : In (k, o) (in_tap_key_origins i) -> input_field i (field x16 k (tap_origin_bytes o))
| IF_tap_internal k : in_tap_internal_key i = Some k -> input_field i (field x17 [] k)
| IF_tap_root h : in_tap_merkle_root i = Some h -> input_field i (field x18 [] h)
| IF_ecdh k v : feat_sp = true -> In (k, v) (in_sp_ecdh_shares i) -> input_field i (field x1d k v)
| IF_dleq k v : feat_sp = true -> In (k, v) (in_sp_dleq_proofs i) -> input_field i (field x1e k v)
| IF_proprietary k v : In (k, v) (in_proprietaries i) -> input_field i (field xfc (prop_key_bytes k) v)
| IF_unknown k v : In (k, v) (in_unknowns i) -> input_field i (Pair k v).

Inductive output_field (o : output) : pair -> Prop :=
| OF_redeem s : out_redeem_script o = Some s -> output_field o (field x00 [] s)
| OF_witness_script s : out_witness_script o = Some s -> output_field o (field x01 [] s)
| OF_bip32 k d : In (k, d) (out_bip32_derivations o) -> output_field o (field x02 k (origin_bytes d))
| OF_amount : output_field o (field x03 [] (le64 (out_amount o)))
| OF_script : output_field o (field x04 [] (out_script_pubkey o))
| OF_tap_internal k : out_tap_internal_key o = Some k -> output_field o (field x05 [] k)
| OF_tap_tree t : out_tap_tree o = Some t -> output_field o (field x06 [] (concat (map tap_leaf_bytes (ni_leaves t))))
| OF_tap_bip32 k d : In (k, d) (out_tap_key_origins o) -> output_field o (field x07 k (tap_origin_bytes d))
| OF_sp_info v : feat_sp = true -> out_sp_v0_info o = Some v -> output_field o (field x09 [] v)
| OF_sp_label n : feat_sp = true -> out_sp_v0_label o = Some n -> output_field o (field x0a [] (le32 n))
| OF_proprietary k v : In (k, v) (out_proprietaries o) -> output_field o (field xfc (prop_key_bytes k) v)
| OF_unknown k v : In (k, v) (out_unknowns o) -> output_field o (Pair k v).

(** Exactly these pairs, each once. *)
Definition written_as (P : pair -> Prop) (l : list pair) : Prop := NoDup l /\ forall p, In p l <-> P p.

End Fields.
