(** Specification of updating a v0 PSBT with a descriptor (BIP-174, BIP-341, BIP-371, BIP-380 to
    BIP-386), independent of the code's helpers. *)
From Coq Require Import Sorted.
From Verif Require Import Base OMap Consensus Ext SpecCodec Serialize Raw TapTree V2Sign SpecSign V0Input V0Output V0Psbt
  SpecExtract0 V0Sign SpecSign0 V0Update.
Local Open Scope N_scope.

(** ** Derived descriptors *)

Fixpoint tree_map {K L} (g : K -> L) (t : dtree K) : dtree L :=
  match t with
  | DLeaf l => DLeaf (DLeafScript (lf_script l) (map g (lf_keys l)))
  | DNode l r => DNode (tree_map g l) (tree_map g r)
  end.
Definition descr_map {K L} (g : K -> L) (d : descr K) : descr L :=
  match d with
  | DscBare keys s => DscBare (map g keys) s
  | DscPkh k => DscPkh (g k)
  | DscWpkh k => DscWpkh (g k)
  | DscWsh keys s => DscWsh (map g keys) s
  | DscSh keys s => DscSh (map g keys) s
  | DscShWpkh k => DscShWpkh (g k)
  | DscShWsh keys s => DscShWsh (map g keys) s
  | DscTr k tree => DscTr (g k) (option_map (tree_map g) tree)
  end.
(** [d'] has, for every key of [d], its public key and its source. *)
Definition derives (d : descr dkey) (d' : descr ddkey) : Prop :=
  d = descr_map (fun k => DKey (Some (fst k)) (snd k)) d'.

(** The leaves of a tree and the keys in them, from left to right. *)
Fixpoint leaves {K} (t : dtree K) : list (dleaf K) :=
  match t with DLeaf l => [l] | DNode l r => leaves l ++ leaves r end.
Definition tr_scripts {K} (tree : option (dtree K)) : list (dleaf K) :=
  match tree with Some t => leaves t | None => [] end.
Definition all_keys {K} (d : descr K) : list K :=
  match d with
  | DscTr k tree => k :: concat (map lf_keys (tr_scripts tree))
  | DscBare keys _ | DscWsh keys _ | DscSh keys _ | DscShWsh keys _ => keys
  | DscPkh k | DscWpkh k | DscShWpkh k => [k]
  end.
Definition taproot {K} (d : descr K) : Prop := exists k tree, d = DscTr k tree.
(** Spent without a witness. *)
Definition legacy {K} (d : descr K) : Prop :=
  match d with DscBare _ _ | DscPkh _ | DscSh _ _ => True | _ => False end.

(** The number of hashes in the longest merkle path; 128 is the limit of BIP-341. *)
Fixpoint depth {K} (t : dtree K) : nat :=
  match t with DLeaf _ => 0%nat | DNode l r => S (Nat.max (depth l) (depth r)) end.
Definition fits {K} (d : descr K) : Prop :=
  match d with DscTr _ (Some t) => (depth t <= 128)%nat | _ => True end.

Section Update.
Context `{X : Ext} `{T : SchnorrExt} `{D : DescExt}.

(** ** Taproot trees (BIP-341) *)

Definition leaf_hash {K} (l : dleaf K) : bytes := tap_leaf_hash (lf_script l) 0xc0.
(** The children of a branch are hashed in lexicographic order. *)
Definition branch_hash (a b : bytes) : bytes := if hash_lt a b then tap_node_hash a b else tap_node_hash b a.
Fixpoint root {K} (t : dtree K) : bytes :=
  match t with DLeaf l => leaf_hash l | DNode l r => branch_hash (root l) (root r) end.
Definition tr_root {K} (tree : option (dtree K)) : option bytes := option_map root tree.

(** The merkle path of a script in the tree: the hashes of the siblings, from the leaf up. *)
Inductive path_in {K} : dtree K -> bytes -> list bytes -> Prop :=
| PathLeaf l : path_in (DLeaf l) (lf_script l) []
| PathLeft l r s p : path_in l s p -> path_in (DNode l r) s (p ++ [root r])
| PathRight l r s p : path_in r s p -> path_in (DNode l r) s (p ++ [root l]).
(** Going up a path from a script of leaf version 0xc0. *)
Definition climb (s : bytes) (path : list bytes) : bytes := fold_left branch_hash path (tap_leaf_hash s 0xc0).

(** The best path of a script that occurs several times: the shortest, and of several the first in
    lexicographic order. *)
Definition path_le (a b : list bytes) : Prop :=
  (length a < length b)%nat \/ length a = length b /\ hash_lt (concat b) (concat a) = false.
Definition best_path {K} (t : dtree K) (s : bytes) (p : list bytes) : Prop :=
  path_in t s p /\ forall p', path_in t s p' -> path_le p p'.
(** [cb] is the control block for the script [s] of the descriptor. *)
Definition controls {K} (ik : bytes) (tree : option (dtree K)) (s : bytes) (cb : controlblock) : Prop :=
  exists t p, tree = Some t /\ best_path t s p
    /\ cb = ControlBlock 0xc0 (output_parity ik (Some (root t))) ik (concat p).

(** ** Scripts *)

Definition x_of (k : ddkey) : bytes := xonly_of (pub_inner (fst k)).
Definition key_hash (k : ddkey) : bytes := hash160 (ser_pubkey (fst k)).
Definition spk_of (d : descr ddkey) : bytes :=
  match d with
  | DscBare _ s => s
  | DscPkh k => p2pkh_script (key_hash k)
  | DscWpkh k => program_script 0 (key_hash k)
  | DscWsh _ s => program_script 0 (sha256 s)
  | DscSh _ s => p2sh_script (hash160 s)
  | DscShWpkh k => p2sh_script (hash160 (program_script 0 (key_hash k)))
  | DscShWsh _ s => p2sh_script (hash160 (program_script 0 (sha256 s)))
  | DscTr k tree => program_script 1 (output_key (x_of k) (tr_root tree))
  end.
(** The scripts that are needed to spend it. *)
Definition redeem_of (d : descr ddkey) : option bytes :=
  match d with
  | DscSh _ s => Some s
  | DscShWpkh k => Some (program_script 0 (key_hash k))
  | DscShWsh _ s => Some (program_script 0 (sha256 s))
  | _ => None
  end.
Definition witness_of (d : descr ddkey) : option bytes :=
  match d with DscWsh _ s | DscShWsh _ s => Some s | _ => None end.

(** ** Updates *)

(** The source of the last key of the list with the given public key; of the first key with the given
    x-only key. *)
Definition last_source (l : list ddkey) (pk : bytes) (src : keysource) : Prop :=
  exists l1 k l2, l = l1 ++ k :: l2 /\ pub_inner (fst k) = pk /\ snd k = src
    /\ (forall k', In k' l2 -> pub_inner (fst k') <> pk).
Definition first_source (l : list ddkey) (x : bytes) (src : keysource) : Prop :=
  exists l1 k l2, l = l1 ++ k :: l2 /\ x_of k = x /\ snd k = src /\ (forall k', In k' l1 -> x_of k' <> x).
(** Some leaf with this hash has a key with this x-only key. *)
Definition in_leaf (tree : option (dtree ddkey)) (x h : bytes) : Prop :=
  exists l k, In l (tr_scripts tree) /\ h = leaf_hash l /\ In k (lf_keys l) /\ x_of k = x.

(** Keys with their sources: those of the descriptor, and the old ones under other keys. *)
Definition sources_after (l : list ddkey) (old new : list (bytes * keysource)) : Prop :=
  forall pk src, m_get bkey pk new = Some src <->
    last_source l pk src \/ (forall k, In k l -> pub_inner (fst k) <> pk) /\ m_get bkey pk old = Some src.

(** In ascending order, without repetitions. *)
Definition ascending (l : list bytes) : Prop := StronglySorted (fun a b => hash_lt a b = true) l.
(** Taproot keys: the internal key with its leaves and its source; a key that was there with its old
    leaves and those of the descriptor and its old source; a new key of a leaf with its leaves and its
    source. *)
Inductive origin_after (ik : ddkey) (tree : option (dtree ddkey)) (old : list (bytes * taporigin)) (x : bytes) : taporigin -> Prop :=
| OriginInternal hs : x = x_of ik -> ascending hs -> (forall h, In h hs <-> in_leaf tree x h) ->
    origin_after ik tree old x (hs, snd ik)
| OriginOld hs0 hs src : x <> x_of ik -> m_get bkey x old = Some (hs0, src) -> ascending hs ->
    (forall h, In h hs <-> In h hs0 \/ in_leaf tree x h) -> origin_after ik tree old x (hs, src)
| OriginLeaf hs src : x <> x_of ik -> m_get bkey x old = None -> ascending hs ->
    (forall h, In h hs <-> in_leaf tree x h) -> first_source (concat (map lf_keys (tr_scripts tree))) x src ->
    origin_after ik tree old x (hs, src).
Definition origins_after ik tree old (new : list (bytes * taporigin)) : Prop :=
  forall x o, m_get bkey x new = Some o <-> origin_after ik tree old x o.

(** The scripts of a taproot input by control block: those of the descriptor, and the old ones under
    other control blocks. *)
Record scripts_after (ik : ddkey) (tree : option (dtree ddkey)) (old new : list (controlblock * leafscript)) : Prop := {
  sa_new : forall cb s v, m_get sk_controlblock cb new = Some (s, v) ->
    v = 0xc0 /\ controls (x_of ik) tree s cb
    \/ (forall s', ~ controls (x_of ik) tree s' cb) /\ m_get sk_controlblock cb old = Some (s, v);
  sa_leaf : forall l, In l (tr_scripts tree) -> exists cb, controls (x_of ik) tree (lf_script l) cb;
  sa_controls : forall s cb, controls (x_of ik) tree s cb -> m_get sk_controlblock cb new <> None;
  sa_old : forall cb, (forall s, ~ controls (x_of ik) tree s cb) ->
    m_get sk_controlblock cb new = m_get sk_controlblock cb old
}.

(** The tree of a taproot output has the leaves of the descriptor, each with its depth. *)
Record tree_after (t : dtree ddkey) (n : taptree) : Prop := {
  ta_root : ni_hash n = root t;
  ta_leaves : forall s v p, In (TapLeaf s v p) (ni_leaves n) <-> v = 0xc0 /\ path_in t s p;
  ta_count : length (ni_leaves n) = length (leaves t)
}.

(** What an update with the descriptor makes of an input, respectively an output. *)
Inductive input_updated (d : descr ddkey) (i : input0) : input0 -> Prop :=
| IUPlain ders : ~ taproot d -> sources_after (all_keys d) (i0_bip32_derivation i) ders ->
    input_updated d i
      (set_i0_bip32_derivation ders
        (set_i0_redeem_script (match redeem_of d with Some s => Some s | None => i0_redeem_script i end)
          (set_i0_witness_script (match witness_of d with Some s => Some s | None => i0_witness_script i end) i)))
| IUTaproot ik tree origins scripts : d = DscTr ik tree ->
    origins_after ik tree (i0_tap_key_origins i) origins ->
    scripts_after ik tree (i0_tap_scripts i) scripts ->
    input_updated d i
      (set_i0_tap_internal_key (Some (x_of ik)) (set_i0_tap_merkle_root (tr_root tree)
        (set_i0_tap_key_origins origins (set_i0_tap_scripts scripts i)))).
Inductive output_updated (d : descr ddkey) (o : output0) : output0 -> Prop :=
| OUPlain ders : ~ taproot d -> sources_after (all_keys d) (o0_bip32_derivation o) ders ->
    output_updated d o
      (set_o0_bip32_derivation ders
        (set_o0_redeem_script (match redeem_of d with Some s => Some s | None => o0_redeem_script o end)
          (set_o0_witness_script (match witness_of d with Some s => Some s | None => o0_witness_script o end) o)))
| OUTaproot ik tree origins tt : d = DscTr ik tree ->
    origins_after ik tree (o0_tap_key_origins o) origins ->
    match tree with
    | Some t => exists n, tt = Some n /\ tree_after t n
    | None => tt = o0_tap_tree o
    end ->
    output_updated d o
      (set_o0_tap_internal_key (Some (x_of ik)) (set_o0_tap_tree tt (set_o0_tap_key_origins origins o))).

(** The transaction or the output given for the input is the one that it spends: [u]. *)
Record spent_output (s : txin * input0) (u : txout) : Prop := {
  so_txid : txid_matches s;
  so_prev : forall t, i0_non_witness_utxo (snd s) = Some t -> nth_error (tx_output t) (N.to_nat (ti_vout (fst s))) = Some u;
  so_witness : forall v, i0_witness_utxo (snd s) = Some v -> v = u;
  so_some : ~ no_utxo s
}.
(** Without a witness the whole transaction is needed. *)
Definition spendable {K} (d : descr K) (s : txin * input0) (u : txout) : Prop :=
  spent_output s u /\ (legacy d -> i0_non_witness_utxo (snd s) <> None).

(** [l'] is [l] with [b] in the place of [a], at index [n]. *)
Definition replaced {A} (n : N) (a b : A) (l l' : list A) : Prop :=
  exists l1 l2, l = l1 ++ a :: l2 /\ l' = l1 ++ b :: l2 /\ N.of_nat (length l1) = n.

(** Why an update fails. *)
Inductive input_update_error (n : N) (d : descr dkey) (p : psbt0) : utxoupderr -> Prop :=
| IEIndex : blen (p0_inputs p) <= n -> input_update_error n d p (UUIndexOutOfBounds n (blen (p0_inputs p)))
| IEMissing : n < blen (p0_inputs p) -> blen (tx_input (p0_unsigned_tx p)) <= n -> input_update_error n d p UUMissingInputUtxo
| IEUtxo s : spend_at p n s -> (forall u, ~ spendable d s u) -> input_update_error n d p UUUtxoCheck
| IEKeys s u : spend_at p n s -> spendable d s u -> (exists k, In k (all_keys d) /\ dk_pub k = None) ->
    input_update_error n d p (UUDerivation HardenedChild)
| IEScript s u d' : spend_at p n s -> spendable d s u -> derives d d' -> fits d' -> to_script u <> spk_of d' ->
    input_update_error n d p UUMismatchedScriptPubkey.
Inductive output_update_error (n : N) (d : descr dkey) (p : psbt0) : outupderr -> Prop :=
| OEIndex : blen (p0_outputs p) <= n -> output_update_error n d p (OUIndexOutOfBounds n (blen (p0_outputs p)))
| OEMissing : n < blen (p0_outputs p) -> blen (tx_output (p0_unsigned_tx p)) <= n -> output_update_error n d p OUMissingTxOut
| OEKeys : n < blen (p0_outputs p) -> n < blen (tx_output (p0_unsigned_tx p)) ->
    (exists k, In k (all_keys d) /\ dk_pub k = None) -> output_update_error n d p (OUDerivation HardenedChild)
| OEScript u d' : n < blen (p0_outputs p) -> nth_error (tx_output (p0_unsigned_tx p)) (N.to_nat n) = Some u ->
    derives d d' -> fits d' -> to_script u <> spk_of d' -> output_update_error n d p OUMismatchedScriptPubkey.

End Update.

(** ** Spending what a descriptor describes *)

(** A bare script is no P2SH script and no witness program, and the script of [sh] is no witness
    program (these are other descriptors). *)
Definition proper (d : descr ddkey) : Prop :=
  match d with
  | DscBare _ s => ~ p2sh s /\ forall v g, ~ program s v g
  | DscSh _ s => forall v g, ~ program s v g
  | _ => True
  end.
Definition kind_for {K} (d : descr K) : outtype :=
  match d with
  | DscBare _ _ | DscPkh _ => Bare
  | DscWpkh _ => Wpkh
  | DscWsh _ _ => Wsh
  | DscSh _ _ => Sh
  | DscShWpkh _ => ShWpkh
  | DscShWsh _ _ => ShWsh
  | DscTr _ _ => Tr
  end.
(** The ECDSA digest for an input that spends [amount] at the descriptor (BIP-143 for segwit). *)
Definition digest_for `{X : Ext} `{S : SignExt} (d : descr ddkey) (t : tx) (n amount ty : N) : bytes :=
  match d with
  | DscBare _ s | DscSh _ s => legacy_digest t n s ty
  | DscPkh k => legacy_digest t n (p2pkh_script (key_hash k)) ty
  | DscWpkh k | DscShWpkh k => segwit_digest t n (p2pkh_script (key_hash k)) amount ty
  | DscWsh _ s | DscShWsh _ s => segwit_digest t n s amount ty
  | DscTr _ _ => []
  end.
(** No scripts that the descriptor does not have. *)
Definition no_stale `{X : Ext} (d : descr ddkey) (i : input0) : Prop :=
  (i0_redeem_script i <> None -> redeem_of d <> None) /\ (i0_witness_script i <> None -> witness_of d <> None).
