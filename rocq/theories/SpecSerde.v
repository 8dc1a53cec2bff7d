(** Specification of the serde layer: which values the Rust types admit, what is asked of the
    implementations in other crates, what a JSON document is, and the members of the structs. *)
From Coq Require Import String.
From Verif Require Import Base OMap Consensus Ext Raw TapTree Serialize SighashType SpecSighash V2Global V2Input V2Output V2Psbt
  V0Input V0Output V0Psbt Serde SpecPsbt SpecPsbt0.
Local Open Scope N_scope.

(** ** Values of the Rust types *)

Definition any {A} (_ : A) : Prop := True.
Definition has_len (n : nat) (b : bytes) : Prop := List.length b = n.
Definition typed_txin (i : txin) : Prop := has_len 32 (ti_txid i) /\ wf_u32 (ti_vout i) /\ wf_u32 (ti_sequence i).
Definition typed_txout (o : txout) : Prop := wf_u64 (to_value o).
Definition typed_tx (t : tx) : Prop :=
  wf_u32 (tx_version t) /\ wf_u32 (tx_lock_time t) /\ Forall typed_txin (tx_input t) /\ Forall typed_txout (tx_output t).
Definition typed_keysource (k : keysource) : Prop := has_len 4 (ks_fp k) /\ Forall wf_u32 (ks_path k).

Section Typed.
Context `{X : Ext} `{C : Cfg}.

Definition typed_leafscript (p : leafscript) : Prop := wf_leafver (snd p).
Definition typed_taporigin (p : taporigin) : Prop := Forall (has_len 32) (fst p) /\ typed_keysource (snd p).
(** A tree built by [TaprootBuilder] that fits in memory. *)
Definition typed_taptree (t : taptree) : Prop :=
  (exists sh, wf_shape sh /\ node_of sh = Some t) /\ blen (ser_taptree t) < U64.

(** Every field holds a value of its type: numbers are in range, keys are points, hashes have
    their length, maps are sorted, fields of a feature that is off do not exist.  Nothing is
    said about the version, about counts, about duplicates between fields, or about sizes. *)
Record typed_global (x : global) : Prop := {
  tyg_version : wf_u32 (g_version x);
  tyg_tx_version : wf_u32 (g_tx_version x);
  tyg_fallback_lock_time : opt_of wf_u32 (g_fallback_lock_time x);
  tyg_tx_modifiable_flags : (fun n => n < 256) (g_tx_modifiable_flags x);
  tyg_input_count : wf_u64 (g_input_count x);
  tyg_output_count : wf_u64 (g_output_count x);
  tyg_xpubs : (map_of sk_xpub wf_xpub typed_keysource) (g_xpubs x);
  tyg_sp_ecdh_shares : sp_field (map_of bkey wf_secp wf_secp) [] (g_sp_ecdh_shares x);
  tyg_sp_dleq_proofs : sp_field (map_of bkey wf_secp wf_dleq) [] (g_sp_dleq_proofs x);
  tyg_proprietaries : (map_of sk_propkey any any) (g_proprietaries x);
  tyg_unknowns : (map_of sk_key any any) (g_unknowns x)
}.
Record typed_input (x : input) : Prop := {
  tyi_previous_txid : (has_len 32) (in_previous_txid x);
  tyi_spent_output_index : wf_u32 (in_spent_output_index x);
  tyi_sequence : opt_of wf_u32 (in_sequence x);
  tyi_min_time : opt_of wf_time (in_min_time x);
  tyi_min_height : opt_of wf_height (in_min_height x);
  tyi_non_witness_utxo : opt_of typed_tx (in_non_witness_utxo x);
  tyi_witness_utxo : opt_of typed_txout (in_witness_utxo x);
  tyi_partial_sigs : (map_of sk_pubkey wf_pubkey wf_esig) (in_partial_sigs x);
  tyi_sighash_type : opt_of wf_u32 (in_sighash_type x);
  tyi_redeem_script : opt_of any (in_redeem_script x);
  tyi_witness_script : opt_of any (in_witness_script x);
  tyi_bip32_derivations : (map_of bkey wf_secp typed_keysource) (in_bip32_derivations x);
  tyi_final_script_sig : opt_of any (in_final_script_sig x);
  tyi_final_script_witness : opt_of any (in_final_script_witness x);
  tyi_ripemd160_preimages : (map_of bkey (has_len 20) any) (in_ripemd160_preimages x);
  tyi_sha256_preimages : (map_of bkey (has_len 32) any) (in_sha256_preimages x);
  tyi_hash160_preimages : (map_of bkey (has_len 20) any) (in_hash160_preimages x);
  tyi_hash256_preimages : (map_of bkey (has_len 32) any) (in_hash256_preimages x);
  tyi_tap_key_sig : opt_of wf_tsig (in_tap_key_sig x);
  tyi_tap_script_sigs : (map_of sk_xleaf wf_xleaf wf_tsig) (in_tap_script_sigs x);
  tyi_tap_scripts : (map_of sk_controlblock wf_controlblock typed_leafscript) (in_tap_scripts x);
  tyi_tap_key_origins : (map_of bkey wf_xonly typed_taporigin) (in_tap_key_origins x);
  tyi_tap_internal_key : opt_of wf_xonly (in_tap_internal_key x);
  tyi_tap_merkle_root : opt_of (has_len 32) (in_tap_merkle_root x);
  tyi_sp_ecdh_shares : sp_field (map_of bkey wf_secp wf_secp) [] (in_sp_ecdh_shares x);
  tyi_sp_dleq_proofs : sp_field (map_of bkey wf_secp wf_dleq) [] (in_sp_dleq_proofs x);
  tyi_proprietaries : (map_of sk_propkey any any) (in_proprietaries x);
  tyi_unknowns : (map_of sk_key any any) (in_unknowns x)
}.
Record typed_output (x : output) : Prop := {
  tyo_amount : wf_u64 (out_amount x);
  tyo_script_pubkey : any (out_script_pubkey x);
  tyo_redeem_script : opt_of any (out_redeem_script x);
  tyo_witness_script : opt_of any (out_witness_script x);
  tyo_bip32_derivations : (map_of bkey wf_secp typed_keysource) (out_bip32_derivations x);
  tyo_tap_internal_key : opt_of wf_xonly (out_tap_internal_key x);
  tyo_tap_tree : opt_of typed_taptree (out_tap_tree x);
  tyo_tap_key_origins : (map_of bkey wf_xonly typed_taporigin) (out_tap_key_origins x);
  tyo_sp_v0_info : sp_field (opt_of any) None (out_sp_v0_info x);
  tyo_sp_v0_label : sp_field (opt_of wf_u32) None (out_sp_v0_label x);
  tyo_proprietaries : (map_of sk_propkey any any) (out_proprietaries x);
  tyo_unknowns : (map_of sk_key any any) (out_unknowns x)
}.
Record typed_psbt (x : psbt) : Prop := {
  typ_global : typed_global (p_global x);
  typ_inputs : (Forall typed_input) (p_inputs x);
  typ_outputs : (Forall typed_output) (p_outputs x)
}.
Record typed_input0 (x : input0) : Prop := {
  tyi0_non_witness_utxo : opt_of typed_tx (i0_non_witness_utxo x);
  tyi0_witness_utxo : opt_of typed_txout (i0_witness_utxo x);
  tyi0_partial_sigs : (map_of sk_pubkey wf_pubkey wf_esig) (i0_partial_sigs x);
  tyi0_sighash_type : opt_of wf_u32 (i0_sighash_type x);
  tyi0_redeem_script : opt_of any (i0_redeem_script x);
  tyi0_witness_script : opt_of any (i0_witness_script x);
  tyi0_bip32_derivation : (map_of bkey wf_secp typed_keysource) (i0_bip32_derivation x);
  tyi0_final_script_sig : opt_of any (i0_final_script_sig x);
  tyi0_final_script_witness : opt_of any (i0_final_script_witness x);
  tyi0_ripemd160_preimages : (map_of bkey (has_len 20) any) (i0_ripemd160_preimages x);
  tyi0_sha256_preimages : (map_of bkey (has_len 32) any) (i0_sha256_preimages x);
  tyi0_hash160_preimages : (map_of bkey (has_len 20) any) (i0_hash160_preimages x);
  tyi0_hash256_preimages : (map_of bkey (has_len 32) any) (i0_hash256_preimages x);
  tyi0_tap_key_sig : opt_of wf_tsig (i0_tap_key_sig x);
  tyi0_tap_script_sigs : (map_of sk_xleaf wf_xleaf wf_tsig) (i0_tap_script_sigs x);
  tyi0_tap_scripts : (map_of sk_controlblock wf_controlblock typed_leafscript) (i0_tap_scripts x);
  tyi0_tap_key_origins : (map_of bkey wf_xonly typed_taporigin) (i0_tap_key_origins x);
  tyi0_tap_internal_key : opt_of wf_xonly (i0_tap_internal_key x);
  tyi0_tap_merkle_root : opt_of (has_len 32) (i0_tap_merkle_root x);
  tyi0_proprietary : (map_of sk_propkey any any) (i0_proprietary x);
  tyi0_unknown : (map_of sk_key any any) (i0_unknown x)
}.
Record typed_output0 (x : output0) : Prop := {
  tyo0_redeem_script : opt_of any (o0_redeem_script x);
  tyo0_witness_script : opt_of any (o0_witness_script x);
  tyo0_bip32_derivation : (map_of bkey wf_secp typed_keysource) (o0_bip32_derivation x);
  tyo0_tap_internal_key : opt_of wf_xonly (o0_tap_internal_key x);
  tyo0_tap_tree : opt_of typed_taptree (o0_tap_tree x);
  tyo0_tap_key_origins : (map_of bkey wf_xonly typed_taporigin) (o0_tap_key_origins x);
  tyo0_proprietary : (map_of sk_propkey any any) (o0_proprietary x);
  tyo0_unknown : (map_of sk_key any any) (o0_unknown x)
}.
Record typed_psbt0 (x : psbt0) : Prop := {
  typ0_unsigned_tx : typed_tx (p0_unsigned_tx x);
  typ0_version : wf_u32 (p0_version x);
  typ0_xpub : (map_of sk_xpub wf_xpub typed_keysource) (p0_xpub x);
  typ0_proprietary : (map_of sk_propkey any any) (p0_proprietary x);
  typ0_unknown : (map_of sk_key any any) (p0_unknown x);
  typ0_inputs : (Forall typed_input0) (p0_inputs x);
  typ0_outputs : (Forall typed_output0) (p0_outputs x)
}.

(** No input knows a preimage. *)
Definition no_preimages (i : input) : Prop :=
  in_ripemd160_preimages i = [] /\ in_sha256_preimages i = [] /\ in_hash160_preimages i = [] /\ in_hash256_preimages i = [].
Definition no_preimages0 (i : input0) : Prop :=
  i0_ripemd160_preimages i = [] /\ i0_sha256_preimages i = [] /\ i0_hash160_preimages i = [] /\ i0_hash256_preimages i = [].

(** The members of the structs with their names, and whether they may be absent. *)
Definition global_members : list (string * bool) :=
  [("version"%string, false); ("tx_version"%string, false); ("fallback_lock_time"%string, true); ("tx_modifiable_flags"%string, false); ("input_count"%string, false); ("output_count"%string, false); ("xpubs"%string, false)]
  ++ (if feat_sp then [("sp_ecdh_shares"%string, false)] else [])
  ++ (if feat_sp then [("sp_dleq_proofs"%string, false)] else [])
  ++ [("proprietaries"%string, false); ("unknowns"%string, false)].
Definition input_members : list (string * bool) :=
  [("previous_txid"%string, false); ("spent_output_index"%string, false); ("sequence"%string, true); ("min_time"%string, true); ("min_height"%string, true); ("non_witness_utxo"%string, true); ("witness_utxo"%string, true); ("partial_sigs"%string, false); ("sighash_type"%string, true); ("redeem_script"%string, true); ("witness_script"%string, true); ("bip32_derivations"%string, false); ("final_script_sig"%string, true); ("final_script_witness"%string, true); ("ripemd160_preimages"%string, false); ("sha256_preimages"%string, false); ("hash160_preimages"%string, false); ("hash256_preimages"%string, false); ("tap_key_sig"%string, true); ("tap_script_sigs"%string, false); ("tap_scripts"%string, false); ("tap_key_origins"%string, false); ("tap_internal_key"%string, true); ("tap_merkle_root"%string, true)]
  ++ (if feat_sp then [("sp_ecdh_shares"%string, false)] else [])
  ++ (if feat_sp then [("sp_dleq_proofs"%string, false)] else [])
  ++ [("proprietaries"%string, false); ("unknowns"%string, false)].
Definition output_members : list (string * bool) :=
  [("amount"%string, false); ("script_pubkey"%string, false); ("redeem_script"%string, true); ("witness_script"%string, true); ("bip32_derivations"%string, false); ("tap_internal_key"%string, true); ("tap_tree"%string, true); ("tap_key_origins"%string, false)]
  ++ (if feat_sp then [("sp_v0_info"%string, true)] else [])
  ++ (if feat_sp then [("sp_v0_label"%string, true)] else [])
  ++ [("proprietaries"%string, false); ("unknowns"%string, false)].
Definition psbt_members : list (string * bool) :=
  [("global"%string, false); ("inputs"%string, false); ("outputs"%string, false)].
Definition input0_members : list (string * bool) :=
  [("non_witness_utxo"%string, true); ("witness_utxo"%string, true); ("partial_sigs"%string, false); ("sighash_type"%string, true); ("redeem_script"%string, true); ("witness_script"%string, true); ("bip32_derivation"%string, false); ("final_script_sig"%string, true); ("final_script_witness"%string, true); ("ripemd160_preimages"%string, false); ("sha256_preimages"%string, false); ("hash160_preimages"%string, false); ("hash256_preimages"%string, false); ("tap_key_sig"%string, true); ("tap_script_sigs"%string, false); ("tap_scripts"%string, false); ("tap_key_origins"%string, false); ("tap_internal_key"%string, true); ("tap_merkle_root"%string, true); ("proprietary"%string, false); ("unknown"%string, false)].
Definition output0_members : list (string * bool) :=
  [("redeem_script"%string, true); ("witness_script"%string, true); ("bip32_derivation"%string, false); ("tap_internal_key"%string, true); ("tap_tree"%string, true); ("tap_key_origins"%string, false); ("proprietary"%string, false); ("unknown"%string, false)].
Definition psbt0_members : list (string * bool) :=
  [("unsigned_tx"%string, false); ("version"%string, false); ("xpub"%string, false); ("proprietary"%string, false); ("unknown"%string, false); ("inputs"%string, false); ("outputs"%string, false)].
End Typed.

(** ** JSON *)

(** Trees that JSON can express and give back: the keys of objects are strings, there are no
    byte strings. *)
Inductive json_doc : sval -> Prop :=
| JNull : json_doc SNull
| JBool b : json_doc (SBool b)
| JNum n : json_doc (SNum n)
| JStr s : json_doc (SStr s)
| JSeq l : Forall json_doc l -> json_doc (SSeq l)
| JMap l : Forall (fun kv => (exists s, fst kv = SStr s) /\ json_doc (snd kv)) l -> json_doc (SMap l).

(** ** Hex text *)

(** Two digits for each byte. *)
Inductive hex_text (digit : byte -> N -> Prop) : bytes -> bytes -> Prop :=
| HNil : hex_text digit [] []
| HCons a x b y s t : digit a x -> digit b y -> hex_text digit s t ->
    hex_text digit (a :: b :: s) (n2b (16 * x + y) :: t).

(** ** Laws of the implementations in other crates *)

(** What is written is read back, only values of the type are read, a value is not written as
    null, and human readable formats are given JSON. *)
Record faithful {A} (ok : A -> Prop) (c : codec A) : Prop := {
  fa_back : forall f x, ok x -> c_de c f (c_ser c f x) = Some x;
  fa_typed : forall f v x, c_de c f v = Some x -> ok x;
  fa_some : forall f x, c_ser c f x <> SNull;
  fa_json : forall f x, f_hr f = true -> json_doc (c_ser c f x)
}.
(** Human readable formats are given strings. *)
Definition textual {A} (c : codec A) : Prop := forall f x, f_hr f = true -> exists s, c_ser c f x = SStr s.

Class SerdeLaws (X : Ext) (SX : SerdeExt) : Prop := {
  sl_tx_version : faithful wf_u32 xc_tx_version;
  sl_lock_time : faithful wf_u32 xc_lock_time;
  sl_xpub : faithful wf_xpub xc_xpub;
  sl_xpub_text : textual xc_xpub;
  sl_fingerprint : faithful (has_len 4) xc_fingerprint;
  sl_path : faithful (Forall wf_u32) xc_path;
  sl_cpk : faithful wf_secp xc_cpk;
  sl_txid : faithful (has_len 32) xc_txid;
  sl_sequence : faithful wf_u32 xc_sequence;
  sl_time : faithful wf_time xc_time;
  sl_height : faithful wf_height xc_height;
  sl_tx : faithful typed_tx xc_tx;
  sl_txout : faithful typed_txout xc_txout;
  sl_pubkey : faithful wf_pubkey xc_pubkey;
  sl_pubkey_text : textual xc_pubkey;
  sl_esig : faithful wf_esig xc_esig;
  sl_script : faithful any xc_script;
  sl_secp : faithful wf_secp xc_secp;
  sl_witness : faithful any xc_witness;
  sl_ripemd160 : faithful (has_len 20) xc_ripemd160;
  sl_ripemd160_text : textual xc_ripemd160;
  sl_sha256 : faithful (has_len 32) xc_sha256;
  sl_sha256_text : textual xc_sha256;
  sl_hash160 : faithful (has_len 20) xc_hash160;
  sl_hash160_text : textual xc_hash160;
  sl_sha256d : faithful (has_len 32) xc_sha256d;
  sl_sha256d_text : textual xc_sha256d;
  sl_tsig : faithful wf_tsig xc_tsig;
  sl_xonly : faithful wf_xonly xc_xonly;
  sl_leaf_hash : faithful (has_len 32) xc_leaf_hash;
  sl_control_block : faithful wf_controlblock xc_control_block;
  sl_leaf_version : faithful wf_leafver xc_leaf_version;
  sl_node_hash : faithful (has_len 32) xc_node_hash;
  sl_amount : faithful wf_u64 xc_amount;
  (** Trees are built again from their leaves; the same root hash is what [==] compares. *)
  sl_tap_tree_back : forall f t, typed_taptree t ->
    exists t', c_de xc_tap_tree f (c_ser xc_tap_tree f t) = Some t' /\ ni_hash t' = ni_hash t;
  sl_tap_tree_typed : forall f v t, c_de xc_tap_tree f v = Some t -> typed_taptree t;
  sl_tap_tree_some : forall f t, c_ser xc_tap_tree f t <> SNull;
  sl_tap_tree_json : forall f t, f_hr f = true -> json_doc (c_ser xc_tap_tree f t)
}.

(** ** Digits *)

(** The digits 0 to 9, a to f and A to F by their codes. *)
Definition lower_digit (c : byte) (x : N) : Prop :=
  48 <= b2n c <= 57 /\ x = b2n c - 48 \/ 97 <= b2n c <= 102 /\ x = b2n c - 87.
Definition any_digit (c : byte) (x : N) : Prop :=
  lower_digit c x \/ 65 <= b2n c <= 70 /\ x = b2n c - 55.

(** ** Maps *)

(** [x] is the value of the last entry with key [k]. *)
Definition last_value {K V} (es : list (K * V)) (k : K) (x : V) : Prop :=
  exists a b, es = a ++ (k, x) :: b /\ ~ In k (map fst b).
(** [m] keeps for each key its last value. *)
Definition keeps_last {K V} (sk : K -> list N) (es m : list (K * V)) : Prop :=
  m_sorted sk m /\ forall k x, In (k, x) m <-> last_value es k x.
(** How the entries of a map are given: as a map, or as a sequence of pairs. *)
Inductive given_as_map {K V} (rk : sval -> K -> Prop) (rv : sval -> V -> Prop) : sval -> list (K * V) -> Prop :=
| GMap l es : Forall2 (fun e x => rk (fst e) (fst x) /\ rv (snd e) (snd x)) l es -> given_as_map rk rv (SMap l) es.
Inductive given_as_seq {K V} (rk : sval -> K -> Prop) (rv : sval -> V -> Prop) : sval -> list (K * V) -> Prop :=
| GSeq l es : Forall2 (fun e x => exists a b, e = SSeq [a; b] /\ rk a (fst x) /\ rv b (snd x)) l es -> given_as_seq rk rv (SSeq l) es.
Definition reads {A} (c : codec A) (f : fmt) (v : sval) (x : A) : Prop := c_de c f v = Some x.
(** Bytes as hex text, which some deserializers give as bytes. *)
Definition reads_hex (v : sval) (b : bytes) : Prop := exists s, (v = SStr s \/ v = SBytes s) /\ hex_text any_digit s b.
(** Bytes as numbers. *)
Definition reads_numbers (v : sval) (b : bytes) : Prop := v = SSeq (map (fun x => SNum (b2n x)) b).

(** ** Structs *)

Definition key_members : list (string * bool) := [("type_value"%string, false); ("key"%string, false)].
Definition raw_pair_members : list (string * bool) := [("key"%string, false); ("value"%string, false)].
Definition propkey_members : list (string * bool) := [("prefix"%string, false); ("subtype"%string, false); ("key"%string, false)].
Definition sighash_type_members : list (string * bool) := [("inner"%string, false)].

(** The structs with named fields and their members. *)
Inductive struct_type `{X : Ext} `{C : Cfg} `{SX : SerdeExt} : forall A, list (string * bool) -> codec A -> Prop :=
| StPsbt : struct_type psbt psbt_members c_psbt
| StGlobal : struct_type global global_members c_global
| StInput : struct_type input input_members c_input
| StOutput : struct_type output output_members c_output
| StPsbt0 : struct_type psbt0 psbt0_members c_psbt0
| StInput0 : struct_type input0 input0_members c_input0
| StOutput0 : struct_type output0 output0_members c_output0
| StKey : struct_type key key_members c_key
| StPair : struct_type pair raw_pair_members c_raw_pair
| StPropKey : struct_type propkey propkey_members c_propkey
| StSighash : struct_type N sighash_type_members c_sighash_type.
(** [n] is the name of a member. *)
Definition is_member (ms : list (string * bool)) (n : bytes) : Prop := exists s o, In (s, o) ms /\ n = str s.
(** The key of an entry stands for the member: by its name (as text or bytes) or by its index. *)
Definition names_member (ms : list (string * bool)) (k : sval) (s : string) : Prop :=
  k = SStr (str s) \/ k = SBytes (str s) \/ exists i o, k = SNum i /\ nth_error ms (N.to_nat i) = Some (s, o).

(** ** Feature silent-payments *)

(** The PSBT without its fields of BIP-375. *)
Definition drop_sp_global (g : global) : global := set_g_sp_dleq_proofs [] (set_g_sp_ecdh_shares [] g).
Definition drop_sp_input (i : input) : input := set_in_sp_dleq_proofs [] (set_in_sp_ecdh_shares [] i).
Definition drop_sp_output (o : output) : output := set_out_sp_v0_label None (set_out_sp_v0_info None o).
Definition drop_sp (p : psbt) : psbt :=
  Psbt (drop_sp_global (p_global p)) (map drop_sp_input (p_inputs p)) (map drop_sp_output (p_outputs p)).
