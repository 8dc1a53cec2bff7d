(** When two version 2 PSBTs are for the same transaction, and which key types only version 2 has. *)
From Verif Require Import Base Raw Consensus Serialize V2Global V2Input V2Output V2Psbt V2Roles V0Error V0Psbt SpecTwoVersions.
Local Open Scope N_scope.

(** Both have the same transaction in their version 0 form. *)
Definition same_unsigned (p q : psbt) : Prop :=
  p0_unsigned_tx (v0_form 0 p) = p0_unsigned_tx (v0_form 0 q).
(** The two combiners end alike. *)
Definition combined_alike (lock : N) (r : res comberr psbt) (r0 : res err0 psbt0) : Prop :=
  match r, r0 with
  | Ok p, Ok p0 => p0 = v0_form lock p
  | Err (CombGlobal (GCInconsistentKeySources x)), Err (E0CombineInconsistentKeySources y) => x = y
  | Panic, Panic => True
  | _, _ => False
  end.

(** BIP-370 and BIP-375: the key types that are not allowed in, or not known to, version 0. *)
Definition v2_only_global (p : pair) : Prop :=
  In (k_type (p_key p)) [x02; x03; x04; x05; x06; xfb] \/ In (k_type (p_key p)) [x07; x08].
Definition v2_only_input (p : pair) : Prop :=
  In (k_type (p_key p)) [x0e; x0f; x10; x11; x12] \/ In (k_type (p_key p)) [x1d; x1e].
Definition v2_only_output (p : pair) : Prop :=
  In (k_type (p_key p)) [x03; x04] \/ In (k_type (p_key p)) [x09; x0a].
