(** Model of the updater of src/v0/miniscript/mod.rs (720-1214) and of [sighash_msg] (813-899).

    Descriptors and their keys belong to rust-miniscript 12 and are external.  A descriptor is given
    by the values that the updater takes from it: for each key its public key and origin, for each
    script its encoding.  [DefiniteDescriptorKey] has no wildcard and one derivation path, so that
    [full_derivation_path] returns a path and the error [MultiKey] (lines 991, 1112, 1141) does not
    occur. *)
From Verif Require Import Base OMap Consensus Ext Raw TapTree Serialize MapCodec V2Global V2Input V2Psbt V2Roles
  Script SighashType V2Sign V2Finalize V0Error V0Input V0Output V0Psbt V0Sign V0Finalize.
Local Open Scope N_scope.

Class DescExt := {
  (** [TaprootSpendInfo::output_key_parity], reached from [control_block] (line 1131): internal key,
      merkle root.  True is odd. *)
  output_parity : bytes -> option bytes -> bool
}.

(** Facts about these functions that hold for the real ones. *)
Class DescLaws (T : SchnorrExt) : Prop := {
  (** An output key is an x-only key. *)
  output_key_len : forall k r, length (output_key k r) = 32%nat
}.

(** With ANYONECANPAY the digest of [taproot_key_spend_signature_hash] and
    [taproot_script_spend_signature_hash] depends on one of the outputs spent only (BIP-341); this
    relates src/v0/miniscript/mod.rs:827 and src/v0/bitcoin/mod.rs:590-600. *)
Class AnyoneLaws (T : SchnorrExt) : Prop := {
  anyone_prevouts : forall t n us u leaf ty, In ty [0x81; 0x82; 0x83] -> nth_error us (N.to_nat n) = Some u ->
    taproot_digest t n (PrevoutsAll us) leaf ty = taproot_digest t n (PrevoutsOne n u) leaf ty
}.

(** [DefiniteDescriptorKey] (src/v0/miniscript/mod.rs:981-994): the result of [derive_public_key],
    which fails for a hardened step below an xpub, and the fingerprint with the path. *)
Record dkey := DKey { dk_pub : option pubkey; dk_source : keysource }.
(** A leaf of a taproot descriptor (src/v0/miniscript/mod.rs:1120-1158): the encoded script and the
    keys in the order of [iter_pk]. *)
Record dleaf (K : Type) := DLeafScript { lf_script : bytes; lf_keys : list K }.
Arguments DLeafScript {K}. Arguments lf_script {K}. Arguments lf_keys {K}.
(** [descriptor::TapTree] (src/v0/miniscript/mod.rs:1120-1121). *)
Inductive dtree (K : Type) : Type :=
| DLeaf (l : dleaf K)
| DNode (l r : dtree K).
Arguments DLeaf {K}. Arguments DNode {K}.
(** [Descriptor<Pk>] (src/v0/miniscript/mod.rs:1194-1208).  Keys are in the order in which
    [translate_pk] meets them; the script is that of the derived descriptor. *)
Inductive descr (K : Type) : Type :=
| DscBare (keys : list K) (script : bytes)
| DscPkh (k : K)
| DscWpkh (k : K)
| DscWsh (keys : list K) (script : bytes)
| DscSh (keys : list K) (script : bytes)
| DscShWpkh (k : K)
| DscShWsh (keys : list K) (script : bytes)
| DscTr (internal_key : K) (tree : option (dtree K)).
Arguments DscBare {K}. Arguments DscPkh {K}. Arguments DscWpkh {K}. Arguments DscWsh {K}.
Arguments DscSh {K}. Arguments DscShWpkh {K}. Arguments DscShWsh {K}. Arguments DscTr {K}.

(** [descriptor::ConversionError] (src/v0/miniscript/mod.rs:1084), the variant that occurs. *)
Inductive converr : Type := HardenedChild.
(** src/v0/miniscript/mod.rs:1218-1230 [UtxoUpdateError]. *)
Inductive utxoupderr : Type :=
| UUIndexOutOfBounds (index len : N)
| UUMissingInputUtxo
| UUDerivation (e : converr)
| UUUtxoCheck
| UUMismatchedScriptPubkey.
(** src/v0/miniscript/mod.rs:1267-1276 [OutputUpdateError]. *)
Inductive outupderr : Type :=
| OUIndexOutOfBounds (index len : N)
| OUMissingTxOut
| OUDerivation (e : converr)
| OUMismatchedScriptPubkey.
(** src/v0/miniscript/mod.rs:1309-1328 [SighashError]. *)
Inductive sighashmsgerr : Type :=
| HMIndexOutOfBounds (index len : N)
| HMMissingInputUtxo
| HMMissingSpendUtxos
| HMInvalidSighashType
| HMTaproot
| HMP2wpkh
| HMInputsIndex
| HMMissingWitnessScript
| HMMissingRedeemScript.
(** src/v0/miniscript/mod.rs:1381-1388 [PsbtSighashMsg]. *)
Inductive sighashmsg : Type :=
| TapSighash (m : bytes)
| LegacySighash (m : bytes)
| SegwitV0Sighash (m : bytes).

(** src/v0/miniscript/mod.rs:1000-1022 [PsbtFields]: the fields that the updater writes; [None] where
    the item has no such field. *)
Record fields : Type := Fields {
  f_redeem_script : option bytes;  (* 1002 *)
  f_witness_script : option bytes;  (* 1003 *)
  f_bip32_derivation : list (bytes * keysource);  (* 1004 *)
  f_tap_internal_key : option bytes;  (* 1005 *)
  f_tap_key_origins : list (bytes * taporigin);  (* 1006-1008 *)
  f_tap_tree : option (option taptree);  (* 1015 *)
  f_tap_scripts : option (list (controlblock * leafscript));  (* 1018-1020 *)
  f_tap_merkle_root : option (option bytes)  (* 1021 *)
}.
(** Field assignments on the fields (src/v0/miniscript/mod.rs:1000-1022). *)
(** src/v0/miniscript/mod.rs:1002, assignment to the field. *)
Definition set_f_redeem_script v (f : fields) : fields :=
  Fields v (f_witness_script f) (f_bip32_derivation f) (f_tap_internal_key f) (f_tap_key_origins f)
    (f_tap_tree f) (f_tap_scripts f) (f_tap_merkle_root f).
(** src/v0/miniscript/mod.rs:1003, assignment to the field. *)
Definition set_f_witness_script v (f : fields) : fields :=
  Fields (f_redeem_script f) v (f_bip32_derivation f) (f_tap_internal_key f) (f_tap_key_origins f)
    (f_tap_tree f) (f_tap_scripts f) (f_tap_merkle_root f).
(** src/v0/miniscript/mod.rs:1004, assignment to the field. *)
Definition set_f_bip32_derivation v (f : fields) : fields :=
  Fields (f_redeem_script f) (f_witness_script f) v (f_tap_internal_key f) (f_tap_key_origins f)
    (f_tap_tree f) (f_tap_scripts f) (f_tap_merkle_root f).
(** src/v0/miniscript/mod.rs:1005, assignment to the field. *)
Definition set_f_tap_internal_key v (f : fields) : fields :=
  Fields (f_redeem_script f) (f_witness_script f) (f_bip32_derivation f) v (f_tap_key_origins f)
    (f_tap_tree f) (f_tap_scripts f) (f_tap_merkle_root f).
(** src/v0/miniscript/mod.rs:1006-1008, assignment to the field. *)
Definition set_f_tap_key_origins v (f : fields) : fields :=
  Fields (f_redeem_script f) (f_witness_script f) (f_bip32_derivation f) (f_tap_internal_key f) v
    (f_tap_tree f) (f_tap_scripts f) (f_tap_merkle_root f).
(** src/v0/miniscript/mod.rs:1015, assignment to the field if there is one. *)
Definition set_f_tap_tree v (f : fields) : fields :=
  Fields (f_redeem_script f) (f_witness_script f) (f_bip32_derivation f) (f_tap_internal_key f) (f_tap_key_origins f)
    (option_map (fun _ => v) (f_tap_tree f)) (f_tap_scripts f) (f_tap_merkle_root f).
(** src/v0/miniscript/mod.rs:1018-1020, change of the field if there is one. *)
Definition map_f_tap_scripts g (f : fields) : fields :=
  Fields (f_redeem_script f) (f_witness_script f) (f_bip32_derivation f) (f_tap_internal_key f) (f_tap_key_origins f)
    (f_tap_tree f) (option_map g (f_tap_scripts f)) (f_tap_merkle_root f).
(** src/v0/miniscript/mod.rs:1021, assignment to the field if there is one. *)
Definition set_f_tap_merkle_root v (f : fields) : fields :=
  Fields (f_redeem_script f) (f_witness_script f) (f_bip32_derivation f) (f_tap_internal_key f) (f_tap_key_origins f)
    (f_tap_tree f) (f_tap_scripts f) (option_map (fun _ => v) (f_tap_merkle_root f)).

(** src/v0/miniscript/mod.rs:1024-1051 [PsbtFields for Input]: reading the fields. *)
Definition input_fields (i : input0) : fields :=
  Fields (i0_redeem_script i) (i0_witness_script i) (i0_bip32_derivation i) (i0_tap_internal_key i)
    (i0_tap_key_origins i) None (Some (i0_tap_scripts i)) (Some (i0_tap_merkle_root i)).
(** src/v0/miniscript/mod.rs:1024-1051 [PsbtFields for Input]: writing the fields. *)
Definition input_with_fields (f : fields) (i : input0) : input0 :=
  set_i0_redeem_script (f_redeem_script f) (set_i0_witness_script (f_witness_script f)
    (set_i0_bip32_derivation (f_bip32_derivation f) (set_i0_tap_internal_key (f_tap_internal_key f)
      (set_i0_tap_key_origins (f_tap_key_origins f)
        (set_i0_tap_scripts (match f_tap_scripts f with Some l => l | None => i0_tap_scripts i end)
          (set_i0_tap_merkle_root (match f_tap_merkle_root f with Some r => r | None => i0_tap_merkle_root i end) i)))))).
(** src/v0/miniscript/mod.rs:1053-1075 [PsbtFields for Output]: reading the fields. *)
Definition output_fields (o : output0) : fields :=
  Fields (o0_redeem_script o) (o0_witness_script o) (o0_bip32_derivation o) (o0_tap_internal_key o)
    (o0_tap_key_origins o) (Some (o0_tap_tree o)) None None.
(** src/v0/miniscript/mod.rs:1053-1075 [PsbtFields for Output]: writing the fields. *)
Definition output_with_fields (f : fields) (o : output0) : output0 :=
  set_o0_redeem_script (f_redeem_script f) (set_o0_witness_script (f_witness_script f)
    (set_o0_bip32_derivation (f_bip32_derivation f) (set_o0_tap_internal_key (f_tap_internal_key f)
      (set_o0_tap_key_origins (f_tap_key_origins f)
        (set_o0_tap_tree (match f_tap_tree f with Some t => t | None => o0_tap_tree o end) o))))).

(** ** Descriptors *)

(** [iter_scripts] (src/v0/miniscript/mod.rs:1121): the leaves from left to right with their depth. *)
Fixpoint dtree_leaves {K} (depth : nat) (t : dtree K) : list (nat * dleaf K) :=
  match t with
  | DLeaf l => [(depth, l)]
  | DNode l r => dtree_leaves (S depth) l ++ dtree_leaves (S depth) r
  end.
(** [tr.iter_scripts()] (src/v0/miniscript/mod.rs:1121). *)
Definition tr_leaves {K} (tree : option (dtree K)) : list (nat * dleaf K) :=
  match tree with Some t => dtree_leaves 0 t | None => [] end.

(** A key of the derived descriptor with the source of the key that it was derived from
    (src/v0/miniscript/mod.rs:985-992, 1104-1115, 1136-1141). *)
Definition ddkey : Type := (pubkey * keysource)%type.
(** [derive_public_key] (src/v0/miniscript/mod.rs:984, 1088). *)
Definition derive_key (k : dkey) : res converr ddkey :=
  pk <- ok_or (dk_pub k) HardenedChild ;; Ok (pk, dk_source k).
(** [translate_pk] over the keys of a script (src/v0/miniscript/mod.rs:1088, 1182). *)
Fixpoint derive_keys (l : list dkey) : res converr (list ddkey) :=
  match l with
  | [] => Ok []
  | k :: r => dk <- derive_key k ;; rest <- derive_keys r ;; Ok (dk :: rest)
  end.
(** [translate_pk] over a tree (src/v0/miniscript/mod.rs:1088). *)
Fixpoint derive_tree (t : dtree dkey) : res converr (dtree ddkey) :=
  match t with
  | DLeaf l => keys <- derive_keys (lf_keys l) ;; Ok (DLeaf (DLeafScript (lf_script l) keys))
  | DNode l r => l' <- derive_tree l ;; r' <- derive_tree r ;; Ok (DNode l' r')
  end.
(** [derived_descriptor] and [translate_pk] (src/v0/miniscript/mod.rs:1088, 1182-1184). *)
Definition derive_desc (d : descr dkey) : res converr (descr ddkey) :=
  match d with
  | DscBare keys s => keys' <- derive_keys keys ;; Ok (DscBare keys' s)
  | DscPkh k => k' <- derive_key k ;; Ok (DscPkh k')
  | DscWpkh k => k' <- derive_key k ;; Ok (DscWpkh k')
  | DscWsh keys s => keys' <- derive_keys keys ;; Ok (DscWsh keys' s)
  | DscSh keys s => keys' <- derive_keys keys ;; Ok (DscSh keys' s)
  | DscShWpkh k => k' <- derive_key k ;; Ok (DscShWpkh k')
  | DscShWsh keys s => keys' <- derive_keys keys ;; Ok (DscShWsh keys' s)
  | DscTr k tree =>
      k' <- derive_key k ;;
      tree' <- match tree with Some t => t' <- derive_tree t ;; Ok (Some t') | None => Ok None end ;;
      Ok (DscTr k' tree')
  end.
(** The keys that the translator of lines 975-994 visits (src/v0/miniscript/mod.rs:1182).  A taproot
    descriptor is not translated with it. *)
Definition desc_keys {K} (d : descr K) : list K :=
  match d with
  | DscBare keys _ | DscWsh keys _ | DscSh keys _ | DscShWsh keys _ => keys
  | DscPkh k | DscWpkh k | DscShWpkh k => [k]
  | DscTr k _ => []
  end.
(** [DescriptorType::segwit_version().is_some()] (src/v0/miniscript/mod.rs:747). *)
Definition desc_is_segwit {K} (d : descr K) : bool :=
  match d with DscBare _ _ | DscPkh _ | DscSh _ _ => false | _ => true end.

(** ** Taproot *)

(** [LeafVersion::TapScript] (src/v0/miniscript/mod.rs:1124). *)
Definition TAPSCRIPT : N := 192.

(** [<[TapLeafHash]>::sort] (src/v0/miniscript/mod.rs:1162): insertion into a sorted list. *)
Fixpoint hash_insert (h : bytes) (l : list bytes) : list bytes :=
  match l with
  | [] => [h]
  | x :: r => if hash_lt x h then x :: hash_insert h r else h :: l
  end.
(** [<[TapLeafHash]>::sort] (src/v0/miniscript/mod.rs:1162). *)
Definition hash_sort (l : list bytes) : list bytes := fold_right hash_insert [] l.
(** [Vec::dedup] (src/v0/miniscript/mod.rs:1163): equal neighbours become one. *)
Fixpoint dedup (l : list bytes) : list bytes :=
  match l with
  | [] => []
  | x :: r => match r with
              | [] => [x]
              | y :: _ => if bytes_eqb x y then dedup r else x :: dedup r
              end
  end.
(** src/v0/miniscript/mod.rs:1161-1164: the loop over all key origins. *)
Definition tidy_origins (l : list (bytes * taporigin)) : list (bytes * taporigin) :=
  map (fun e => (fst e, (dedup (hash_sort (fst (snd e))), snd (snd e)))) l.

(** src/v0/miniscript/mod.rs:1142-1156: the entry of one key of a leaf. *)
Definition add_origin (leaf : bytes) (x : bytes) (src : keysource) (l : list (bytes * taporigin)) : list (bytes * taporigin) :=
  match m_get bkey x l with
  | Some (hashes, old) =>
      m_put bkey x (if match rev hashes with h :: _ => bytes_eqb h leaf | [] => false end
                    then hashes else hashes ++ [leaf], old) l
  | None => m_put bkey x ([leaf], src) l
  end.

Section Update.
Context `{X : Ext} `{T : SchnorrExt} `{D : DescExt}.

(** [x_only_public_key] of a derived key (src/v0/miniscript/mod.rs:1099, 1137). *)
Definition xonly_key (pk : pubkey) : bytes := xonly_of (pub_inner pk).

(** [TaprootBuilder::add_leaf(..).expect(..)] (src/v0/miniscript/mod.rs:1126-1128, and in
    [spend_info]). *)
Definition add_leaf (depth : nat) (script : bytes) (br : builder) : res Empty_set builder :=
  expect (tb_insert depth br (leaf_node script TAPSCRIPT)).
(** The loop over all leaves in [Tr::spend_info] (src/v0/miniscript/mod.rs:1098). *)
Fixpoint add_leaves {K} (l : list (nat * dleaf K)) (br : builder) : res Empty_set builder :=
  match l with
  | [] => Ok br
  | (depth, lf) :: r => br' <- add_leaf depth (lf_script lf) br ;; add_leaves r br'
  end.
(** The finished builder, with [expect] (src/v0/miniscript/mod.rs:1098, 1171-1172). *)
Definition finish (br : builder) : res Empty_set taptree :=
  match tb_finish br with Ok n => Ok n | _ => Panic end.
(** [Tr::spend_info] (src/v0/miniscript/mod.rs:1098): the tree, if there is one. *)
Definition spend_info {K} (tree : option (dtree K)) : res Empty_set (option taptree) :=
  match tree with
  | None => Ok None
  | Some t => br <- add_leaves (dtree_leaves 0 t) [] ;; n <- finish br ;; Ok (Some n)
  end.
(** [TaprootSpendInfo::merkle_root] (src/v0/miniscript/mod.rs:1102). *)
Definition merkle_root (info : option taptree) : option bytes := option_map ni_hash info.

(** [ScriptBuf::new_p2tr], in [script_pubkey] (src/v0/miniscript/mod.rs:1091). *)
Definition script_p2tr (ik : bytes) (root : option bytes) : bytes := [x51; x20] ++ output_key ik root.
(** [Descriptor<PublicKey>::script_pubkey] (src/v0/miniscript/mod.rs:1091, 1187). *)
Definition desc_script_pubkey (d : descr ddkey) : res Empty_set bytes :=
  match d with
  | DscBare _ s => Ok s
  | DscPkh k => Ok (p2pkh_of (fst k))
  | DscWpkh k => Ok (p2wpkh_of (fst k))
  | DscWsh _ s => Ok (script_to_p2wsh s)
  | DscSh _ s => Ok (script_to_p2sh s)
  | DscShWpkh k => Ok (script_to_p2sh (p2wpkh_of (fst k)))
  | DscShWsh _ s => Ok (script_to_p2sh (script_to_p2wsh s))
  | DscTr k tree =>
      info <- spend_info tree ;;
      Ok (script_p2tr (xonly_key (fst k)) (merkle_root info))
  end.

(** [branch] comes before [other] in the choice of [control_block] (src/v0/miniscript/mod.rs:1131):
    shorter, or the same length and first in the order of the set. *)
Definition branch_before (a b : list bytes) : bool :=
  if Nat.eqb (length a) (length b) then hash_lt (concat a) (concat b) else Nat.ltb (length a) (length b).
(** The branch that [control_block] takes for a script (src/v0/miniscript/mod.rs:1131). *)
Fixpoint best_branch (script : bytes) (l : list tapleaf) : option (list bytes) :=
  match l with
  | [] => None
  | lf :: r =>
      let rest := best_branch script r in
      if bytes_eqb (tl_script lf) script && (tl_ver lf =? TAPSCRIPT) then
        match rest with
        | None => Some (tl_branch lf)
        | Some b => if branch_before (tl_branch lf) b then Some (tl_branch lf) else Some b
        end
      else rest
  end.
(** [TaprootSpendInfo::control_block] (src/v0/miniscript/mod.rs:1130-1132). *)
Definition control_block (ik : bytes) (info : option taptree) (script : bytes) : option controlblock :=
  match info with
  | None => None
  | Some n =>
      option_map (fun branch => ControlBlock TAPSCRIPT (output_parity ik (Some (ni_hash n))) ik (concat branch))
        (best_branch script (ni_leaves n))
  end.

(** src/v0/miniscript/mod.rs:1136-1157: the loop over the keys of a leaf. *)
Definition add_leaf_origins (leaf : bytes) (keys : list ddkey) (l : list (bytes * taporigin)) : list (bytes * taporigin) :=
  fold_left (fun m k => add_origin leaf (xonly_key (fst k)) (snd k) m) keys l.
(** src/v0/miniscript/mod.rs:1120-1158: the loop over the leaves. *)
Fixpoint update_leaves (ik : bytes) (info : option taptree) (leaves : list (nat * dleaf ddkey)) (br : builder) (f : fields)
    : res Empty_set (builder * fields) :=
  match leaves with
  | [] => Ok (br, f)
  | (depth, lf) :: r =>
      let script := lf_script lf in
      br' <- add_leaf depth script br ;;
      f1 <- match f_tap_scripts f with
            | Some _ =>
                cb <- expect (control_block ik info script) ;;
                Ok (map_f_tap_scripts (m_put sk_controlblock cb (script, TAPSCRIPT)) f)
            | None => Ok f
            end ;;
      update_leaves ik info r br'
        (set_f_tap_key_origins
           (add_leaf_origins (tap_leaf_hash script TAPSCRIPT) (lf_keys lf) (f_tap_key_origins f1)) f1)
  end.
(** src/v0/miniscript/mod.rs:1097-1176: the fields of a taproot descriptor. *)
Definition update_tr (k : ddkey) (tree : option (dtree ddkey)) (f : fields) : res Empty_set fields :=
  info <- spend_info tree ;;
  let ik := xonly_key (fst k) in
  let f1 := set_f_tap_merkle_root (merkle_root info) f in
  let f2 := set_f_tap_internal_key (Some ik) f1 in
  let f3 := set_f_tap_key_origins (m_put bkey ik ([], snd k) (f_tap_key_origins f2)) f2 in
  '(br, f4) <- update_leaves ik info (tr_leaves tree) [] f3 ;;
  let f5 := set_f_tap_key_origins (tidy_origins (f_tap_key_origins f4)) f4 in
  match f_tap_tree f5, tree with
  | Some _, Some _ => n <- finish br ;; Ok (set_f_tap_tree (Some n) f5)
  | _, _ => Ok f5
  end.

(** src/v0/miniscript/mod.rs:985-992: [KeySourceLookUp] after the translation. *)
Definition key_sources (l : list ddkey) : list (bytes * keysource) :=
  fold_left (fun m e => m_put bkey (pub_inner (fst e)) (snd e) m) l [].
(** src/v0/miniscript/mod.rs:1194-1208: the scripts of the other descriptors. *)
Definition update_scripts (d : descr ddkey) (f : fields) : res Empty_set fields :=
  match d with
  | DscBare _ _ | DscPkh _ | DscWpkh _ => Ok f
  | DscShWsh _ s => Ok (set_f_redeem_script (Some (script_to_p2wsh s)) (set_f_witness_script (Some s) f))
  | DscShWpkh k => Ok (set_f_redeem_script (Some (p2wpkh_of (fst k))) f)
  | DscSh _ s => Ok (set_f_redeem_script (Some s) f)
  | DscWsh _ s => Ok (set_f_witness_script (Some s) f)
  | DscTr _ _ => Panic
  end.

(** src/v0/miniscript/mod.rs:1090-1094, 1186-1190: does the check of the script fail? *)
Definition check_fails (check_script : option bytes) (spk : bytes) : bool :=
  match check_script with Some s => negb (bytes_eqb s spk) | None => false end.

(** src/v0/miniscript/mod.rs:1077-1214 [update_item_with_descriptor_helper]: the fields after the call
    and the result.  The fields are those at the return; after a panic they are not used. *)
Definition update_item (d : descr dkey) (check_script : option bytes) (f : fields)
    : fields * res converr (descr ddkey * bool) :=
  match derive_desc d with
  | Panic => (f, Panic)
  | Err e => (f, Err e)
  | Ok derived =>
      match desc_script_pubkey derived with
      | Ok spk =>
          if check_fails check_script spk then (f, Ok (derived, false))
          else
            match
              match derived with
              | DscTr k tree => update_tr k tree f
              | _ =>
                  update_scripts derived
                    (set_f_bip32_derivation
                       (m_extend bkey (f_bip32_derivation f) (key_sources (desc_keys derived))) f)
              end
            with
            | Ok f' => (f', Ok (derived, true))
            | _ => (f, Panic)
            end
      | _ => (f, Panic)
      end
  end.

(** src/v0/miniscript/mod.rs:744-774: the script that the descriptor must have. *)
Definition expected_spk (d : descr dkey) (i : input0) (ti : txin) : res utxoupderr bytes :=
  match i0_witness_utxo i, i0_non_witness_utxo i with
  | Some u, None => if desc_is_segwit d then Ok (to_script u) else Err UUUtxoCheck
  | None, Some prev => u <- ok_or (nth_N (tx_output prev) (ti_vout ti)) UUUtxoCheck ;; Ok (to_script u)
  | Some u, Some prev =>
      v <- ok_or (nth_N (tx_output prev) (ti_vout ti)) UUUtxoCheck ;;
      _ <- fail_if (negb ((to_value u =? to_value v) && bytes_eqb (to_script u) (to_script v))) UUUtxoCheck ;;
      Ok (to_script u)
  | None, None => Err UUUtxoCheck
  end.

(** src/v0/miniscript/mod.rs:720-784 [update_input_with_descriptor]: the PSBT after the call and the
    result. *)
Definition update_input (n : N) (d : descr dkey) (p : psbt0) : psbt0 * res utxoupderr unit :=
  match nth_N (p0_inputs p) n with
  | None => (p, Err (UUIndexOutOfBounds n (blen (p0_inputs p))))
  | Some i =>
      match nth_N (tx_input (p0_unsigned_tx p)) n with
      | None => (p, Err UUMissingInputUtxo)
      | Some ti =>
          match
            (_ <- match i0_non_witness_utxo i with
                  | Some prev => fail_if (negb (bytes_eqb (ti_txid ti) (compute_txid prev))) UUUtxoCheck
                  | None => Ok tt
                  end ;;
             expected_spk d i ti)
          with
          | Ok spk =>
              let (f, r) := update_item d (Some spk) (input_fields i) in
              (set_p0_inputs (set_nth (N.to_nat n) (input_with_fields f i) (p0_inputs p)) p,
               '(_, b) <- map_err UUDerivation r ;;
               fail_if (negb b) UUMismatchedScriptPubkey)
          | Err e => (p, Err e)
          | Panic => (p, Panic)
          end
      end
  end.

(** src/v0/miniscript/mod.rs:786-811 [update_output_with_descriptor]. *)
Definition update_output (n : N) (d : descr dkey) (p : psbt0) : psbt0 * res outupderr unit :=
  match nth_N (p0_outputs p) n with
  | None => (p, Err (OUIndexOutOfBounds n (blen (p0_outputs p))))
  | Some o =>
      match nth_N (tx_output (p0_unsigned_tx p)) n with
      | None => (p, Err OUMissingTxOut)
      | Some u =>
          let (f, r) := update_item d (Some (to_script u)) (output_fields o) in
          (set_p0_outputs (set_nth (N.to_nat n) (output_with_fields f o) (p0_outputs p)) p,
           '(_, b) <- map_err OUDerivation r ;;
           fail_if (negb b) OUMismatchedScriptPubkey)
      end
  end.

(** src/v0/miniscript/mod.rs:926-934 [PsbtInputExt::update_with_descriptor_unchecked]. *)
Definition update_input_unchecked (d : descr dkey) (i : input0) : input0 * res converr (descr ddkey) :=
  let (f, r) := update_item d None (input_fields i) in
  (input_with_fields f i, '(derived, _) <- r ;; Ok derived).
(** src/v0/miniscript/mod.rs:960-968 [PsbtOutputExt::update_with_descriptor_unchecked]. *)
Definition update_output_unchecked (d : descr dkey) (o : output0) : output0 * res converr (descr ddkey) :=
  let (f, r) := update_item d None (output_fields o) in
  (output_with_fields f o, '(derived, _) <- r ;; Ok derived).

End Update.

(** ** [sighash_msg] *)

Section SighashMsg.
Context `{X : Ext} `{S : SignExt} `{T : SchnorrExt}.

(** [map_err(|_e| e)] of src/v0/miniscript/mod.rs:825, 829, 855. *)
Definition or_err {E F A} (m : res E A) (e : F) : res F A := map_err (fun _ => e) m.

(** src/v0/miniscript/mod.rs:813-899 [sighash_msg]; [t] is the transaction of the cache. *)
Definition psbt0_sighash_msg (p : psbt0) (idx : N) (t : tx) (leaf : option bytes) : res sighashmsgerr sighashmsg :=
  _ <- fail_if (blen (p0_inputs p) <=? idx) (HMIndexOutOfBounds idx (blen (p0_inputs p))) ;;
  inp <- expect (nth_N (p0_inputs p) idx) ;;
  prev <- or_err (psbt0_prevouts p) HMMissingSpendUtxos ;;
  inp_spk <- or_err (get_scriptpubkey p idx) HMMissingInputUtxo ;;
  if is_p2tr inp_spk then
    hash_ty <- ok_or (match i0_sighash_type inp with Some n => sighash_tap_ty n | None => Some TDefault end) HMInvalidSighashType ;;
    m <- ok_or (taproot_signature_hash t idx (PrevoutsAll prev) leaf (tap_num hash_ty)) HMTaproot ;;
    Ok (TapSighash m)
  else
    hash_ty <- ok_or (input0_ecdsa_hash_ty inp) HMInvalidSighashType ;;
    u <- or_err (get_utxo p idx) HMMissingInputUtxo ;;
    let amt := to_value u in
    let nested f := is_p2sh inp_spk && match i0_redeem_script inp with Some s => f s | None => false end in
    if is_p2wpkh inp_spk || is_p2wsh inp_spk || nested is_p2wpkh || nested is_p2wsh then
      m <- (if is_p2wpkh inp_spk then
              or_err (p2wpkh_signature_hash0 t idx inp_spk amt hash_ty) HMP2wpkh
            else if nested is_p2wpkh then
              script_code <- expect (i0_redeem_script inp) ;;
              or_err (p2wpkh_signature_hash0 t idx script_code amt hash_ty) HMP2wpkh
            else
              witness_script <- ok_or (i0_witness_script inp) HMMissingWitnessScript ;;
              ok_or (p2wsh_signature_hash t idx witness_script amt hash_ty) HMInputsIndex) ;;
      Ok (SegwitV0Sighash m)
    else
      script_code <- (if is_p2sh inp_spk then ok_or (i0_redeem_script inp) HMMissingRedeemScript else Ok inp_spk) ;;
      m <- ok_or (legacy_signature_hash t idx script_code hash_ty) HMInputsIndex ;;
      Ok (LegacySighash m).

End SighashMsg.
