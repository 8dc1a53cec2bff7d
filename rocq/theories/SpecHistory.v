(** Histories of a v2 PSBT: where it comes from and what the roles may do to it, in any order
    and any number of times. *)
From Verif Require Import Base OMap Consensus Ext Raw Serialize V2Global V2Input V2Output V2Psbt V2Roles V2Sign V2Finalize
  SpecRoles SpecPsbt SpecFinalize SpecBuild.
Local Open Scope N_scope.

Section History.
Context `{X : Ext} `{C : Cfg} `{S : SignExt} `{M : MsExt}.

(** The numbers in the arguments fit their types, and the vectors fit in memory. *)
Definition good_ccall (c : ccall) : Prop :=
  match c with CcVersion v => v < 2 ^ 32 | CcFallback n => n < 2 ^ 32 | _ => True end.
Definition good_kcall (c : kcall) : Prop :=
  match c with KcInput i => wf_input i | KcOutput o => wf_output o | _ => True end.
Definition fits (p : psbt) : Prop :=
  blen (p_inputs p) * size_input <= ISIZE_MAX /\ blen (p_outputs p) * size_output <= ISIZE_MAX.

(** Made from nothing, or read. *)
Inductive origin : psbt -> Prop :=
| Or_made k cs ks p :
    Forall good_ccall cs -> Forall (allowed k) ks -> Forall good_kcall ks -> construct (E := Empty_set) k cs ks = Ok p -> fits p -> origin p
| Or_read bs p : psbt_deserialize bs = Ok p -> origin p.

(** What one role does.  A constructor is made from the PSBT and may do several things.  The
    fields of the maps are public: an application fills in what it knows about the inputs and
    outputs, but leaves the outpoints and the payments alone. *)
Inductive step : psbt -> psbt -> Prop :=
| St_construct k p p' ks q :
    constructor_new k p = Ok p' -> Forall (allowed k) ks -> Forall good_kcall ks -> do_kcalls (E := Empty_set) p' ks = Ok q -> fits q -> step p q
| St_updater p q : constructor_updater p = Ok q -> step p q
| St_fill p ins outs :
    Forall wf_input ins -> Forall wf_output outs ->
    map outpoint_of ins = map outpoint_of (p_inputs p) -> map payment_of outs = map payment_of (p_outputs p) ->
    step p (Psbt (p_global p) ins outs)
| St_sequence n index p q : n < 2 ^ 32 -> updater_set_sequence n index p = Ok q -> step p q
| St_sign k p q used : signer_sign k p = Ok (q, used) -> step p q
| St_combine p other q : wf_psbt other -> psbt_combine p other = Ok q -> step p q
| St_finalize p q :
    finalizer_value p -> (forall i ss w, In i (p_inputs p) -> computed p i ss w -> wf_value ss /\ wf_witness_v w) ->
    finalizer_finalize p = Ok q -> step p q
| St_store p q : psbt_deserialize (psbt_serialize p) = Ok q -> step p q.
Inductive steps : psbt -> psbt -> Prop :=
| Ss_none p : steps p p
| Ss_more p q r : steps p q -> step q r -> steps p r.
Definition history (p : psbt) : Prop := exists o, origin o /\ steps o p.

(** Bits 0 and 1 of the modifiable flags. *)
Definition open_inputs (p : psbt) : Prop := N.testbit (g_tx_modifiable_flags (p_global p)) 0 = true.
Definition open_outputs (p : psbt) : Prop := N.testbit (g_tx_modifiable_flags (p_global p)) 1 = true.
End History.
