(** Histories of a v0 PSBT: where it comes from and what may be done to it, in any order and any
    number of times. *)
From Verif Require Import Base OMap Consensus Ext Raw Serialize V2Sign SpecSign SpecPsbt V0Input V0Output V0Psbt SpecPsbt0 V0Sign V2Finalize SpecFinalize V0Finalize
  SpecFinalize0 V0Update SpecUpdate0 SpecWorkflow0.
Local Open Scope N_scope.

Section History.
Context `{X : Ext} `{S : SignExt} `{T : SchnorrExt} `{D : DescExt} `{M : MsExt} `{NM : !MsNmExt M}.

(** Made from a transaction that fits into the global map, or read. *)
Inductive origin0 : psbt0 -> Prop :=
| Or0_made t p : wf_tx t -> tx_base_size t <= 3999992 -> from_unsigned_tx t = Ok p -> origin0 p
| Or0_read bs p : psbt0_deserialize bs = Ok p -> origin0 p.

(** One step.  The fields of the maps are public: an application fills in what it knows. *)
Inductive step0 : psbt0 -> psbt0 -> Prop :=
| St0_fill p ins outs :
    Forall wf_input0 ins -> Forall wf_output0 outs -> length ins = length (p0_inputs p) -> length outs = length (p0_outputs p) ->
    step0 p (set_p0_outputs outs (set_p0_inputs ins p))
| St0_update_input n d d' p q i :
    update_input n d p = (q, Ok tt) -> derives d d' -> sound d' ->
    nth_error (p0_inputs q) (N.to_nat n) = Some i -> origins_fit (i0_tap_key_origins i) -> step0 p q
| St0_update_output n d d' p q o :
    update_output n d p = (q, Ok tt) -> derives d d' -> sound d' -> tree_fits d' ->
    nth_error (p0_outputs q) (N.to_nat n) = Some o -> origins_fit (o0_tap_key_origins o) -> step0 p q
| St0_sign k p q used errs : psbt0_sign k p = Ok (q, used, errs) -> step0 p q
| St0_combine p other q : wf_psbt0 other -> psbt0_combine p other = Ok q -> global0_size q <= 4000000 -> step0 p q
| St0_combined p other q : wf_psbt0 other -> psbt0_combine other p = Ok q -> global0_size q <= 4000000 -> step0 p q
| St0_finalize (mall : bool) p q errs :
    (if mall then finalize_mall_mut p else finalize_mut p) = Ok (q, errs) ->
    (forall n w ss, built mall (stage p q n) n w ss -> wf_value ss /\ wf_witness_v w) -> step0 p q
| St0_finalize_input n p q :
    finalize_inp_mut p n = Ok q \/ finalize_inp_mall_mut p n = Ok q ->
    (forall w ss, built false p n w ss -> wf_value ss /\ wf_witness_v w) -> step0 p q
| St0_store p q : psbt0_deserialize (psbt0_serialize p) = Ok q -> step0 p q.
Inductive steps0 : psbt0 -> psbt0 -> Prop :=
| Ss0_none p : steps0 p p
| Ss0_more p q r : steps0 p q -> step0 q r -> steps0 p r.
Definition history0 (p : psbt0) : Prop := exists o, origin0 o /\ steps0 o p.
End History.
