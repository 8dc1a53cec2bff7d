(** Specification of what a signature of a version 2 PSBT covers (BIP-143), independent of the
    digests. *)
From Verif Require Import Base Consensus Ext RealExt V2Global V2Input V2Output V2Psbt V2Sign SpecRoles SpecSign.
Local Open Scope N_scope.

(** The sequence number that the code signs for an input. *)
Definition signed_sequence (i : input) : N := match in_sequence i with Some n => n | None => 0 end.
(** The script that the signature of an input that spends output [u] covers: of segwit version 0, and
    before segwit. *)
Inductive script_code2 (i : input) (u : txout) : bytes -> Prop :=
| Code2Wpkh h : p2wpkh_hash (to_script u) h -> script_code2 i u (p2pkh_script h)
| Code2ShWpkh c h : p2sh (to_script u) -> in_redeem_script i = Some c -> p2wpkh_hash c h -> script_code2 i u (p2pkh_script h)
| Code2Wsh h c : p2wsh_hash (to_script u) h -> in_witness_script i = Some c -> script_code2 i u c
| Code2ShWsh q h c : p2sh (to_script u) -> in_redeem_script i = Some q -> p2wsh_hash q h ->
    in_witness_script i = Some c -> script_code2 i u c.
Inductive legacy_code2 (i : input) (u : txout) : bytes -> Prop :=
| Code2Bare : output_kind (to_script u) (in_redeem_script i) Bare -> legacy_code2 i u (to_script u)
| Code2Sh c : output_kind (to_script u) (in_redeem_script i) Sh -> in_redeem_script i = Some c -> legacy_code2 i u c.
(** The same version and lock time. *)
Definition same_locks (p p' : psbt) : Prop :=
  g_tx_version (p_global p) = g_tx_version (p_global p') /\ exists k, bip370_lock_time p (Some k) /\ bip370_lock_time p' (Some k).
Definition payments (p : psbt) : list (N * bytes) := map payment_of (p_outputs p).
