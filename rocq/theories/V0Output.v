(** Model of src/v0/bitcoin/map/output.rs; see V0Input.v for the macros and codecs. *)
From Verif Require Import Base OMap Consensus Ext Raw TapTree Serialize MapCodec.
Local Open Scope N_scope.

(** src/v0/bitcoin/map/output.rs:37-59, [Output]. *)
Record output0 : Type := Output0 {
  o0_redeem_script : option bytes;  (* 39 *)
  o0_witness_script : option bytes;  (* 41 *)
  o0_bip32_derivation : list (bytes * keysource);  (* 45 *)
  o0_tap_internal_key : option bytes;  (* 47 *)
  o0_tap_tree : option taptree;  (* 49 *)
  o0_tap_key_origins : list (bytes * taporigin);  (* 52 *)
  o0_proprietary : list (propkey * bytes);  (* 55 *)
  o0_unknown : list (key * bytes)  (* 58 *)
}.

(** Field assignments [self.field = value] on output0 (Rust's field update, src/v0/bitcoin/map/output.rs:37-59). *)
(** src/v0/bitcoin/map/output.rs:39, assignment to the field. *)
Definition set_o0_redeem_script (v : option bytes) (s : output0) : output0 :=
  Output0 v (o0_witness_script s) (o0_bip32_derivation s) (o0_tap_internal_key s) (o0_tap_tree
    s) (o0_tap_key_origins s) (o0_proprietary s) (o0_unknown s).
(** src/v0/bitcoin/map/output.rs:41, assignment to the field. *)
Definition set_o0_witness_script (v : option bytes) (s : output0) : output0 :=
  Output0 (o0_redeem_script s) v (o0_bip32_derivation s) (o0_tap_internal_key s) (o0_tap_tree
    s) (o0_tap_key_origins s) (o0_proprietary s) (o0_unknown s).
(** src/v0/bitcoin/map/output.rs:45, assignment to the field. *)
Definition set_o0_bip32_derivation (v : list (bytes * keysource)) (s : output0) : output0 :=
  Output0 (o0_redeem_script s) (o0_witness_script s) v (o0_tap_internal_key s) (o0_tap_tree s)
    (o0_tap_key_origins s) (o0_proprietary s) (o0_unknown s).
(** src/v0/bitcoin/map/output.rs:47, assignment to the field. *)
Definition set_o0_tap_internal_key (v : option bytes) (s : output0) : output0 :=
  Output0 (o0_redeem_script s) (o0_witness_script s) (o0_bip32_derivation s) v (o0_tap_tree s)
    (o0_tap_key_origins s) (o0_proprietary s) (o0_unknown s).
(** src/v0/bitcoin/map/output.rs:49, assignment to the field. *)
Definition set_o0_tap_tree (v : option taptree) (s : output0) : output0 :=
  Output0 (o0_redeem_script s) (o0_witness_script s) (o0_bip32_derivation s)
    (o0_tap_internal_key s) v (o0_tap_key_origins s) (o0_proprietary s) (o0_unknown s).
(** src/v0/bitcoin/map/output.rs:52, assignment to the field. *)
Definition set_o0_tap_key_origins (v : list (bytes * taporigin)) (s : output0) : output0 :=
  Output0 (o0_redeem_script s) (o0_witness_script s) (o0_bip32_derivation s)
    (o0_tap_internal_key s) (o0_tap_tree s) v (o0_proprietary s) (o0_unknown s).
(** src/v0/bitcoin/map/output.rs:55, assignment to the field. *)
Definition set_o0_proprietary (v : list (propkey * bytes)) (s : output0) : output0 :=
  Output0 (o0_redeem_script s) (o0_witness_script s) (o0_bip32_derivation s)
    (o0_tap_internal_key s) (o0_tap_tree s) (o0_tap_key_origins s) v (o0_unknown s).
(** src/v0/bitcoin/map/output.rs:58, assignment to the field. *)
Definition set_o0_unknown (v : list (key * bytes)) (s : output0) : output0 :=
  Output0 (o0_redeem_script s) (o0_witness_script s) (o0_bip32_derivation s)
    (o0_tap_internal_key s) (o0_tap_tree s) (o0_tap_key_origins s) (o0_proprietary s) v.

Section Output.
Context `{X : Ext}.

(** src/v0/bitcoin/map/output.rs:35 derived [Default]. *)
Definition output0_default : output0 :=
  Output0 None None [] None None [] [] [].

(** src/v0/bitcoin/map/output.rs:105-107: types that BIP-370 keeps out of version 0. *)
Definition output0_excluded (t : byte) : bool := beq t x03 || beq t x04.

(** src/v0/bitcoin/map/output.rs:62-117 [Output::insert_pair]; key types from lines 13-32. *)
Definition output0_insert_pair (p : pair) (o : output0) : res ierr output0 :=
  let t := k_type (p_key p) in
  if beq t x00 then v <- ins_opt de_script p (o0_redeem_script o) ;; Ok (set_o0_redeem_script v o)
  else if beq t x01 then v <- ins_opt de_script p (o0_witness_script o) ;; Ok (set_o0_witness_script v o)
  else if beq t x02 then v <- ins_map bkey de_secp de_keysource p (o0_bip32_derivation o) ;; Ok (set_o0_bip32_derivation v o)
  else if beq t xfc then v <- ins_prop IDeser p (o0_proprietary o) ;; Ok (set_o0_proprietary v o)
  else if beq t x05 then v <- ins_opt de_xonly p (o0_tap_internal_key o) ;; Ok (set_o0_tap_internal_key v o)
  else if beq t x06 then v <- ins_opt de_taptree p (o0_tap_tree o) ;; Ok (set_o0_tap_tree v o)
  else if beq t x07 then v <- ins_map bkey de_xonly de_taporigin p (o0_tap_key_origins o) ;; Ok (set_o0_tap_key_origins v o)
  else if output0_excluded t then Err (IExcludedKey t)
  else v <- ins_unknown p (o0_unknown o) ;; Ok (set_o0_unknown v o).

(** src/v0/bitcoin/map/output.rs:120-130 [Output::combine]. *)
Definition output0_combine (self other : output0) : output0 :=
  Output0
    (comb_opt (o0_redeem_script self) (o0_redeem_script other))
    (comb_opt (o0_witness_script self) (o0_witness_script other))
    (comb_map bkey (o0_bip32_derivation self) (o0_bip32_derivation other))
    (comb_opt (o0_tap_internal_key self) (o0_tap_internal_key other))
    (comb_opt (o0_tap_tree self) (o0_tap_tree other))
    (comb_map bkey (o0_tap_key_origins self) (o0_tap_key_origins other))
    (comb_map sk_propkey (o0_proprietary self) (o0_proprietary other))
    (comb_map sk_key (o0_unknown self) (o0_unknown other)).

(** src/v0/bitcoin/map/output.rs:134-170 [Map::get_pairs] for [Output]. *)
Definition output0_pairs (o : output0) : list pair :=
  opt_pairs x00 ser_script (o0_redeem_script o)
  ++ opt_pairs x01 ser_script (o0_witness_script o)
  ++ map_pairs x02 ser_secp ser_keysource (o0_bip32_derivation o)
  ++ opt_pairs x05 ser_xonly (o0_tap_internal_key o)
  ++ opt_pairs x06 ser_taptree (o0_tap_tree o)
  ++ map_pairs x07 ser_xonly ser_taporigin (o0_tap_key_origins o)
  ++ prop_pairs (o0_proprietary o)
  ++ unknown_pairs (o0_unknown o).

End Output.
