(** When the finalizers of the two versions have the same to say about an input. *)
From Verif Require Import Base OMap Consensus Ext Serialize V2Global V2Input V2Output V2Psbt SpecRoles SpecSign V2Finalize V0Finalize.
Local Open Scope N_scope.

(** Two satisfiers that answer every question alike. *)
Record same_answers (s s' : satisfier) : Prop := {
  sa_tap_key : sat_tap_key s = sat_tap_key s';
  sa_tap_leaf : forall k h, sat_tap_leaf s k h = sat_tap_leaf s' k h;
  sa_pkh_pk : forall h, sat_pkh_pk s h = sat_pkh_pk s' h;
  sa_pkh_tap : forall h l, sat_pkh_tap s h l = sat_pkh_tap s' h l;
  sa_ecdsa : forall k, sat_ecdsa s k = sat_ecdsa s' k;
  sa_pkh_ecdsa : forall h, sat_pkh_ecdsa s h = sat_pkh_ecdsa s' h;
  sa_after : forall n, sat_after s n = sat_after s' n;
  sa_older : forall n, sat_older s n = sat_older s' n;
  sa_hash160 : forall h, sat_hash160 s h = sat_hash160 s' h;
  sa_sha256 : forall h, sat_sha256 s h = sat_sha256 s' h;
  sa_hash256 : forall h, sat_hash256 s h = sat_hash256 s' h;
  sa_ripemd160 : forall h, sat_ripemd160 s h = sat_ripemd160 s' h
}.
(** What a miniscript finds depends on the answers only. *)
Definition asks_only (M : MsExt) : Prop :=
  forall c m s s', same_answers s s' -> ms_satisfy c m s = ms_satisfy c m s'.

(** The time locks that an input of the PSBT names are those of the transaction: none, or the lock time
    of the transaction, which is enabled. *)
Inductive locks_kept (lock : N) (p : psbt) (i : input) : Prop :=
| LKNone : in_sequence i = None \/ in_sequence i = Some (2 ^ 32 - 1) -> in_min_time i = None -> in_min_height i = None ->
    locks_kept lock p i
| LKHeight s : in_sequence i = Some s -> s <> 2 ^ 32 - 1 -> 2 <= g_tx_version (p_global p) < 2 ^ 31 ->
    in_min_height i = Some lock -> in_min_time i = None -> lock < 500000000 -> locks_kept lock p i
| LKTime s : in_sequence i = Some s -> s <> 2 ^ 32 - 1 -> 2 <= g_tx_version (p_global p) < 2 ^ 31 ->
    in_min_time i = Some lock -> in_min_height i = None -> 500000000 <= lock -> locks_kept lock p i.

(** The keys of leaves are not taken from other inputs: the input spends an output that is no taproot
    output, or has a signature for its key path, or no other input names taproot keys. *)
Inductive own_leaf_keys (p : psbt) (i : input) (u : txout) : Prop :=
| OLOther : (forall k, ~ p2tr_key (to_script u) k) -> own_leaf_keys p i u
| OLSigned : in_tap_key_sig i <> None -> own_leaf_keys p i u
| OLAlone l1 l2 : p_inputs p = l1 ++ i :: l2 -> Forall (fun j => in_tap_key_origins j = []) (l1 ++ l2) -> own_leaf_keys p i u.

(** The errors that name the same problem. *)
Inductive same_final_problem : inputerr -> inputerr0 -> Prop :=
| QKey : same_final_problem IEKey J0Key
| QTaproot : same_final_problem IECouldNotSatisfyTr J0CouldNotSatisfyTr
| QRedeem r e : same_final_problem (IEInvalidRedeemScript r e) (J0InvalidRedeemScript r e)
| QWitness s e : same_final_problem (IEInvalidWitnessScript s e) (J0InvalidWitnessScript s e)
| QMiniscript : same_final_problem IEMiniscript J0Miniscript
| QNoRedeem : same_final_problem IEMissingRedeemScript J0MissingRedeemScript
| QNoPubkey : same_final_problem IEMissingPubkey J0MissingPubkey
| QNoWitness : same_final_problem IEMissingWitnessScript J0MissingWitnessScript
| QSomeWitness : same_final_problem IENonEmptyWitnessScript J0NonEmptyWitnessScript
| QSomeRedeem : same_final_problem IENonEmptyRedeemScript J0NonEmptyRedeemScript.
