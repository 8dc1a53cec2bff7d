(** Specification of finalizing a v0 PSBT (BIP-174), independent of the code's helpers. *)
From Verif Require Import Base OMap Consensus Ext Raw TapTree Serialize V2Psbt V2Roles V2Sign SpecSign V2Finalize SpecFinalize
  V0Error V0Input V0Output V0Psbt SpecExtract0 V0Sign SpecSign0 V0Finalize.
Local Open Scope N_scope.

(** The signatures that a satisfier can offer. *)
Definition no_signature (s : satisfier) : Prop :=
  sat_tap_key s = None /\ (forall k lh, sat_tap_leaf s k lh = None) /\ (forall h lh, sat_pkh_tap s h lh = None)
  /\ (forall k, sat_ecdsa s k = None) /\ (forall h, sat_pkh_ecdsa s h = None).

(** Facts about rust-miniscript that some theorems need. *)
Class MsNmLaws (M : MsExt) (NM : MsNmExt M) : Prop := {
  (** A satisfaction that cannot be changed is a satisfaction. *)
  ms_nm_found : forall c m s w, ms_satisfy_nm c m s = Some w -> exists w', ms_satisfy c m s = Some w';
  (** The scripts that may be used bare (pk, pkh, multi) need a signature. *)
  ms_bare_signed : forall m s, ms_top_level CBare m = true -> no_signature s -> ms_satisfy CBare m s = None;
  ms_bare_items : forall m s w, ms_top_level CBare m = true -> ms_satisfy CBare m s = Some w -> w <> [];
  ms_bare_items_nm : forall m s w, ms_top_level CBare m = true -> ms_satisfy_nm CBare m s = Some w -> w <> [];
  (** Every item takes at least one byte of a script sig. *)
  ms_script_sig_items : forall l, l <> [] -> ms_script_sig l <> []
}.

(** [i'] keeps the utxos of [i], has the given final fields, if they are not empty, and nothing
    else. *)
Record final_input0 (w : witness) (ss : bytes) (i i' : input0) : Prop := {
  fi0_non_witness_utxo : i0_non_witness_utxo i' = i0_non_witness_utxo i;
  fi0_witness_utxo : i0_witness_utxo i' = i0_witness_utxo i;
  fi0_script_sig : i0_final_script_sig i' = match ss with [] => None | _ => Some ss end;
  fi0_witness : i0_final_script_witness i' = match w with [] => None | _ => Some w end;
  fi0_ecdsa : i0_partial_sigs i' = [] /\ i0_sighash_type i' = None /\ i0_redeem_script i' = None
              /\ i0_witness_script i' = None /\ i0_bip32_derivation i' = [];
  fi0_preimages : i0_ripemd160_preimages i' = [] /\ i0_sha256_preimages i' = []
                  /\ i0_hash160_preimages i' = [] /\ i0_hash256_preimages i' = [];
  fi0_tap : i0_tap_key_sig i' = None /\ i0_tap_script_sigs i' = [] /\ i0_tap_scripts i' = []
            /\ i0_tap_key_origins i' = [] /\ i0_tap_internal_key i' = None /\ i0_tap_merkle_root i' = None;
  fi0_other : i0_proprietary i' = [] /\ i0_unknown i' = []
}.

(** [p] with the first [n] inputs of [q]. *)
Definition stage (p q : psbt0) (n : N) : psbt0 :=
  set_p0_inputs (firstn (N.to_nat n) (p0_inputs q) ++ skipn (N.to_nat n) (p0_inputs p)) p.

(** All outputs that are spent. *)
Definition spent_outputs (p : psbt0) (us : list txout) : Prop := Forall2 funds0 (spends p) us.
(** The first input of whose output nothing is known. *)
Definition first_unknown (p : psbt0) (k : N) : Prop :=
  (exists s, spend_at p k s /\ no_utxo s) /\ forall j s, j < k -> spend_at p j s -> exists u, funds0 s u.

(** The signatures of the input have its sighash type. *)
Definition signatures_typed (i : input0) : Prop :=
  exists ty, type_of_input0 i ty /\ Forall (fun e => es_type (snd e) = ty) (i0_partial_sigs i).

Section Finalize.
Context `{X : Ext} `{M : MsExt} `{NM : !MsNmExt M}.

(** Witness and script sig found for the input with index [n], respectively none is found. *)
Definition built (mall : bool) (p : psbt0) (n : N) (w : witness) (ss : bytes) : Prop := build_final mall p n = Ok (w, ss).
Definition not_built (mall : bool) (p : psbt0) (n : N) (e : inputerr0) : Prop := build_final mall p n = Err e.

(** The interpreter accepts them for the transaction of the PSBT. *)
Definition verdict0 (p : psbt0) (n : N) (w : witness) (ss : bytes) (v : interp) : Prop :=
  exists s u us, spend_at p n s /\ funds0 s u /\ spent_outputs p us /\
    ms_interpret (to_script u) ss w (ti_sequence (fst s)) (tx_lock_time (p0_unsigned_tx p)) (p0_unsigned_tx p) n us = v.
Definition accepted (p : psbt0) (n : N) (w : witness) (ss : bytes) : Prop := verdict0 p n w ss IOk.
Definition finalizes0 (mall : bool) (p : psbt0) (n : N) : Prop := exists w ss, built mall p n w ss /\ accepted p n w ss.

(** Why an input cannot be finalized. *)
Inductive fails0 (mall : bool) (p : psbt0) (n : N) : msferr0 -> Prop :=
| F0Build e : not_built mall p n e -> fails0 mall p n (M0Input e n)
| F0Utxo w ss k : built mall p n w ss -> first_unknown p k -> fails0 mall p n (M0Input J0MissingUtxo k)
| F0Interpreter w ss v : built mall p n w ss -> verdict0 p n w ss v -> v <> IOk -> fails0 mall p n (M0Input J0Interpreter n).

End Finalize.
