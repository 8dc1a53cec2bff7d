(** Model of src/v2/map/output.rs. *)
From Verif Require Import Base OMap Consensus Ext Raw TapTree Serialize MapCodec.
Local Open Scope N_scope.

(** src/v2/map/output.rs:29-66, [Output]. *)
Record output : Type := Output {
  out_amount : N;  (* 31 *)
  out_script_pubkey : bytes;  (* 34 *)
  out_redeem_script : option bytes;  (* 37 *)
  out_witness_script : option bytes;  (* 39 *)
  out_bip32_derivations : list (bytes * keysource);  (* 43 *)
  out_tap_internal_key : option bytes;  (* 45 *)
  out_tap_tree : option taptree;  (* 47 *)
  out_tap_key_origins : list (bytes * taporigin);  (* 50 *)
  out_sp_v0_info : option bytes;  (* 54 *)
  out_sp_v0_label : option N;  (* 58 *)
  out_proprietaries : list (propkey * bytes);  (* 62 *)
  out_unknowns : list (key * bytes)  (* 65 *)
}.

(** Field assignments [self.field = value] on output (Rust's field update, src/v2/map/output.rs:29-66). *)
(** src/v2/map/output.rs:31, assignment to the field. *)
Definition set_out_amount (v : N) (s : output) : output :=
  Output v (out_script_pubkey s) (out_redeem_script s) (out_witness_script s)
    (out_bip32_derivations s) (out_tap_internal_key s) (out_tap_tree s) (out_tap_key_origins s)
    (out_sp_v0_info s) (out_sp_v0_label s) (out_proprietaries s) (out_unknowns s).
(** src/v2/map/output.rs:34, assignment to the field. *)
Definition set_out_script_pubkey (v : bytes) (s : output) : output :=
  Output (out_amount s) v (out_redeem_script s) (out_witness_script s) (out_bip32_derivations
    s) (out_tap_internal_key s) (out_tap_tree s) (out_tap_key_origins s) (out_sp_v0_info s)
    (out_sp_v0_label s) (out_proprietaries s) (out_unknowns s).
(** src/v2/map/output.rs:37, assignment to the field. *)
Definition set_out_redeem_script (v : option bytes) (s : output) : output :=
  Output (out_amount s) (out_script_pubkey s) v (out_witness_script s) (out_bip32_derivations
    s) (out_tap_internal_key s) (out_tap_tree s) (out_tap_key_origins s) (out_sp_v0_info s)
    (out_sp_v0_label s) (out_proprietaries s) (out_unknowns s).
(** src/v2/map/output.rs:39, assignment to the field. *)
Definition set_out_witness_script (v : option bytes) (s : output) : output :=
  Output (out_amount s) (out_script_pubkey s) (out_redeem_script s) v (out_bip32_derivations
    s) (out_tap_internal_key s) (out_tap_tree s) (out_tap_key_origins s) (out_sp_v0_info s)
    (out_sp_v0_label s) (out_proprietaries s) (out_unknowns s).
(** src/v2/map/output.rs:43, assignment to the field. *)
Definition set_out_bip32_derivations (v : list (bytes * keysource)) (s : output) : output :=
  Output (out_amount s) (out_script_pubkey s) (out_redeem_script s) (out_witness_script s) v
    (out_tap_internal_key s) (out_tap_tree s) (out_tap_key_origins s) (out_sp_v0_info s)
    (out_sp_v0_label s) (out_proprietaries s) (out_unknowns s).
(** src/v2/map/output.rs:45, assignment to the field. *)
Definition set_out_tap_internal_key (v : option bytes) (s : output) : output :=
  Output (out_amount s) (out_script_pubkey s) (out_redeem_script s) (out_witness_script s)
    (out_bip32_derivations s) v (out_tap_tree s) (out_tap_key_origins s) (out_sp_v0_info s)
    (out_sp_v0_label s) (out_proprietaries s) (out_unknowns s).
(** src/v2/map/output.rs:47, assignment to the field. *)
Definition set_out_tap_tree (v : option taptree) (s : output) : output :=
  Output (out_amount s) (out_script_pubkey s) (out_redeem_script s) (out_witness_script s)
    (out_bip32_derivations s) (out_tap_internal_key s) v (out_tap_key_origins s) (out_sp_v0_info
    s) (out_sp_v0_label s) (out_proprietaries s) (out_unknowns s).
(** src/v2/map/output.rs:50, assignment to the field. *)
Definition set_out_tap_key_origins (v : list (bytes * taporigin)) (s : output) : output :=
  Output (out_amount s) (out_script_pubkey s) (out_redeem_script s) (out_witness_script s)
    (out_bip32_derivations s) (out_tap_internal_key s) (out_tap_tree s) v (out_sp_v0_info s)
    (out_sp_v0_label s) (out_proprietaries s) (out_unknowns s).
(** src/v2/map/output.rs:54, assignment to the field. *)
Definition set_out_sp_v0_info (v : option bytes) (s : output) : output :=
  Output (out_amount s) (out_script_pubkey s) (out_redeem_script s) (out_witness_script s)
    (out_bip32_derivations s) (out_tap_internal_key s) (out_tap_tree s) (out_tap_key_origins s)
    v (out_sp_v0_label s) (out_proprietaries s) (out_unknowns s).
(** src/v2/map/output.rs:58, assignment to the field. *)
Definition set_out_sp_v0_label (v : option N) (s : output) : output :=
  Output (out_amount s) (out_script_pubkey s) (out_redeem_script s) (out_witness_script s)
    (out_bip32_derivations s) (out_tap_internal_key s) (out_tap_tree s) (out_tap_key_origins s)
    (out_sp_v0_info s) v (out_proprietaries s) (out_unknowns s).
(** src/v2/map/output.rs:62, assignment to the field. *)
Definition set_out_proprietaries (v : list (propkey * bytes)) (s : output) : output :=
  Output (out_amount s) (out_script_pubkey s) (out_redeem_script s) (out_witness_script s)
    (out_bip32_derivations s) (out_tap_internal_key s) (out_tap_tree s) (out_tap_key_origins s)
    (out_sp_v0_info s) (out_sp_v0_label s) v (out_unknowns s).
(** src/v2/map/output.rs:65, assignment to the field. *)
Definition set_out_unknowns (v : list (key * bytes)) (s : output) : output :=
  Output (out_amount s) (out_script_pubkey s) (out_redeem_script s) (out_witness_script s)
    (out_bip32_derivations s) (out_tap_internal_key s) (out_tap_tree s) (out_tap_key_origins s)
    (out_sp_v0_info s) (out_sp_v0_label s) (out_proprietaries s) v.

(** src/v2/map/output.rs:349-360 [DecodeError]. *)
Inductive oderr : Type :=
| ODInsertPair (e : ierr)
| ODDeserPair (e : serr)
| ODMissingValue
| ODMissingScriptPubkey
| ODLabelWithoutInfo.

(** src/v2/map/output.rs:446-461 [CombineError]. *)
Inductive ocerr : Type :=
| OCAmountMismatch (this that : N)
| OCScriptPubkeyMismatch (this that : bytes).

Section Output.
Context `{X : Ext} `{C : Cfg}.

(** src/v2/map/output.rs:70-87 [Output::new]. *)
Definition output_new (utxo : txout) : output :=
  Output (to_value utxo) (to_script utxo) None None [] None None [] None None [] [].

(** src/v2/map/output.rs:336-344 [OutputBuilder]. *)
Definition output_builder_new (utxo : txout) : output := output_new utxo.
(** src/v2/map/output.rs:343 [OutputBuilder::build]. *)
Definition output_builder_build (o : output) : output := o.

(** src/v2/map/output.rs:104-106 [Output::tx_out]. *)
Definition output_tx_out (o : output) : txout := TxOut (out_amount o) (out_script_pubkey o).

(** src/v2/map/output.rs:198-209, silent payment address. *)
Definition ins_sp_v0_info (p : pair) (cur : option bytes) : res ierr (option bytes) :=
  _ <- fail_if (is_some cur) (IDuplicateKey (p_key p)) ;;
  _ <- fail_if (negb (is_empty (k_data (p_key p)))) (IInvalidKeyDataNotEmpty (p_key p)) ;;
  _ <- fail_if (negb (blen (p_value p) =? 66)) (IValueWrongLength (blen (p_value p)) 66) ;;
  Ok (Some (p_value p)).

(** src/v2/map/output.rs:211-224, silent payment label. *)
Definition ins_sp_v0_label (p : pair) (cur : option N) : res ierr (option N) :=
  _ <- fail_if (is_some cur) (IDuplicateKey (p_key p)) ;;
  _ <- fail_if (negb (is_empty (k_data (p_key p)))) (IInvalidKeyDataNotEmpty (p_key p)) ;;
  _ <- fail_if (negb (blen (p_value p) =? 4)) (IValueWrongLength (blen (p_value p)) 4) ;;
  Ok (Some (le_dec (p_value p))).

(** src/v2/map/output.rs:138-236 [Output::insert_pair]; key types from src/consts.rs. *)
Definition output_insert_pair (p : pair) (o : output) : res ierr output :=
  let t := k_type (p_key p) in
  if beq t x03 then
    v <- ins_placeholder (fun a => a =? 0) de_amount p (out_amount o) ;; Ok (set_out_amount v o)
  else if beq t x04 then
    v <- ins_placeholder is_empty de_script p (out_script_pubkey o) ;; Ok (set_out_script_pubkey v o)
  else if beq t x00 then
    v <- ins_opt de_script p (out_redeem_script o) ;; Ok (set_out_redeem_script v o)
  else if beq t x01 then
    v <- ins_opt de_script p (out_witness_script o) ;; Ok (set_out_witness_script v o)
  else if beq t x02 then
    v <- ins_map bkey de_secp de_keysource p (out_bip32_derivations o) ;; Ok (set_out_bip32_derivations v o)
  else if beq t xfc then
    v <- ins_prop IDeser p (out_proprietaries o) ;; Ok (set_out_proprietaries v o)
  else if beq t x05 then
    v <- ins_opt de_xonly p (out_tap_internal_key o) ;; Ok (set_out_tap_internal_key v o)
  else if beq t x06 then
    v <- ins_opt de_taptree p (out_tap_tree o) ;; Ok (set_out_tap_tree v o)
  else if beq t x07 then
    v <- ins_map bkey de_xonly de_taporigin p (out_tap_key_origins o) ;; Ok (set_out_tap_key_origins v o)
  else if feat_sp && beq t x09 then
    v <- ins_sp_v0_info p (out_sp_v0_info o) ;; Ok (set_out_sp_v0_info v o)
  else if feat_sp && beq t x0a then
    v <- ins_sp_v0_label p (out_sp_v0_label o) ;; Ok (set_out_sp_v0_label v o)
  else
    v <- ins_unknown p (out_unknowns o) ;; Ok (set_out_unknowns v o).

(** src/v2/map/output.rs:109-111: the placeholder a decoder starts from. *)
Definition output_invalid : output := output_new (TxOut 0 []).

(** src/v2/map/output.rs:121-135: the checks after the last pair. *)
Definition output_check (o : output) : res oderr output :=
  _ <- fail_if (out_amount o =? 0) ODMissingValue ;;
  _ <- fail_if (negb feat_sp && is_empty (out_script_pubkey o)) ODMissingScriptPubkey ;;
  _ <- fail_if (feat_sp && is_some (out_sp_v0_label o) && is_none (out_sp_v0_info o)) ODLabelWithoutInfo ;;
  Ok o.

(** src/v2/map/output.rs:108-136 [Output::decode]. *)
Definition output_decode : reader oderr output :=
  fun bs =>
    '(o, r) <- dec_map (fun p o => map_err ODInsertPair (output_insert_pair p o)) ODDeserPair
                       (S (length bs)) output_invalid bs ;;
    o' <- output_check o ;;
    Ok (o', r).

(** src/v2/map/output.rs:239-265 [Output::combine]. *)
Definition output_combine (self other : output) : res ocerr output :=
  _ <- fail_if (negb (out_amount self =? out_amount other))
               (OCAmountMismatch (out_amount self) (out_amount other)) ;;
  _ <- fail_if (negb (bytes_eqb (out_script_pubkey self) (out_script_pubkey other)))
               (OCScriptPubkeyMismatch (out_script_pubkey self) (out_script_pubkey other)) ;;
  Ok (Output (out_amount self) (out_script_pubkey self)
        (comb_opt (out_redeem_script self) (out_redeem_script other))
        (comb_opt (out_witness_script self) (out_witness_script other))
        (comb_map bkey (out_bip32_derivations self) (out_bip32_derivations other))
        (comb_opt (out_tap_internal_key self) (out_tap_internal_key other))
        (comb_opt (out_tap_tree self) (out_tap_tree other))
        (comb_map bkey (out_tap_key_origins self) (out_tap_key_origins other))
        (comb_opt (out_sp_v0_info self) (out_sp_v0_info other))
        (comb_opt (out_sp_v0_label self) (out_sp_v0_label other))
        (comb_map sk_propkey (out_proprietaries self) (out_proprietaries other))
        (comb_map sk_key (out_unknowns self) (out_unknowns other))).

(** src/v2/map/output.rs:269-331 [Map::get_pairs] for [Output]. *)
Definition output_pairs (o : output) : list pair :=
  [Pair (Key x03 []) (ser_amount (out_amount o))]
  ++ [Pair (Key x04 []) (ser_script (out_script_pubkey o))]
  ++ opt_pairs x00 ser_script (out_redeem_script o)
  ++ opt_pairs x01 ser_script (out_witness_script o)
  ++ map_pairs x02 ser_secp ser_keysource (out_bip32_derivations o)
  ++ opt_pairs x05 ser_xonly (out_tap_internal_key o)
  ++ opt_pairs x06 ser_taptree (out_tap_tree o)
  ++ map_pairs x07 ser_xonly ser_taporigin (out_tap_key_origins o)
  ++ (if feat_sp then opt_pairs x09 ser_vec (out_sp_v0_info o) else [])
  ++ (if feat_sp then opt_pairs x0a (le_enc 4) (out_sp_v0_label o) else [])
  ++ prop_pairs (out_proprietaries o)
  ++ unknown_pairs (out_unknowns o).

(** src/v2/map/mod.rs:36-43 [Map::serialize_map] for [Output]. *)
Definition output_serialize (o : output) : bytes := ser_pairs (output_pairs o).

End Output.
