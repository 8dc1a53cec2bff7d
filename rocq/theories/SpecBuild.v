(** What a caller of the v2 creator, constructor and builders asks for (BIP-370, roles of
    creator and constructor). *)
From Verif Require Import Base Consensus Ext Raw Serialize V2Global V2Input V2Output V2Psbt V2Roles SpecRoles SpecPsbt.
Local Open Scope N_scope.

(** The value of the last element that has one. *)
Fixpoint latest {A B} (f : A -> option B) (l : list A) : option B :=
  match l with
  | [] => None
  | a :: r => match latest f r with Some b => Some b | None => f a end
  end.
(** All the values. *)
Fixpoint all_of {A B} (f : A -> option B) (l : list A) : list B :=
  match l with
  | [] => []
  | a :: r => match f a with Some b => b :: all_of f r | None => all_of f r end
  end.

(** ** Inputs *)

(** Calls on an [InputBuilder] (src/v2/map/input.rs:826-861). *)
Inductive bcall : Type := BcTime (n : N) | BcHeight (n : N) | BcSegwit (u : txout) | BcLegacy (t : tx).
Definition bc_time c := match c with BcTime n => Some n | _ => None end.
Definition bc_height c := match c with BcHeight n => Some n | _ => None end.
Definition bc_segwit c := match c with BcSegwit u => Some u | _ => None end.
Definition bc_legacy c := match c with BcLegacy t => Some t | _ => None end.
Definition do_bcall (i : input) (c : bcall) : input :=
  match c with
  | BcTime n => input_builder_min_time n i
  | BcHeight n => input_builder_min_height n i
  | BcSegwit u => input_builder_segwit_fund u i
  | BcLegacy t => input_builder_legacy_fund t i
  end.
(** [InputBuilder::new(op)], the calls, [build()]. *)
Definition build_input (op : outpoint) (l : list bcall) : input :=
  input_builder_build (fold_left do_bcall l (input_builder_new op)).
(** [OutputBuilder::new(utxo).build()]. *)
Definition build_output (u : txout) : output := output_builder_build (output_builder_new u).

(** Arguments that the types of the library and the wire format allow. *)
Definition good_call (c : bcall) : Prop :=
  match c with
  | BcTime n => wf_time n
  | BcHeight n => wf_height n
  | BcSegwit u => wf_txout_v u
  | BcLegacy t => wf_tx_v t
  end.
Definition good_outpoint (op : outpoint) : Prop :=
  length (fst op) = 32%nat /\ fst op <> repeat x00 32 /\ snd op < 2 ^ 32 - 1.
Definition good_payment (u : txout) : Prop :=
  0 < to_value u /\ to_value u < 2 ^ 64 /\ wf_value (to_script u) /\ to_script u <> [].

(** ** The PSBT *)

(** Calls on a [Creator] (src/v2/mod.rs:97-140). *)
Inductive ccall : Type := CcVersion (v : N) | CcFallback (n : N) | CcSingle | CcInputs | CcOutputs.
Definition cc_version c := match c with CcVersion v => Some v | _ => None end.
Definition cc_fallback c := match c with CcFallback n => Some n | _ => None end.
Definition do_ccall (p : psbt) (c : ccall) : psbt :=
  match c with
  | CcVersion v => creator_transaction_version v p
  | CcFallback n => creator_fallback_lock_time n p
  | CcSingle => creator_sighash_single p
  | CcInputs => creator_inputs_modifiable p
  | CcOutputs => creator_outputs_modifiable p
  end.
(** Calls on a [Constructor] (src/v2/mod.rs:260-376). *)
Inductive kcall : Type := KcInput (i : input) | KcOutput (o : output) | KcNoInputs | KcNoOutputs.
Definition kc_input c := match c with KcInput i => Some i | _ => None end.
Definition kc_output c := match c with KcOutput o => Some o | _ => None end.
(** The methods that the type of the constructor has. *)
Definition allowed (k : ckind) (c : kcall) : Prop :=
  match c with KcInput _ => takes_inputs k | KcOutput _ => takes_outputs k | _ => True end.

Section Build.
Context `{X : Ext} `{C : Cfg}.

Definition do_kcall {E} (p : psbt) (c : kcall) : res E psbt :=
  match c with
  | KcInput i => constructor_input i p
  | KcOutput o => constructor_output o p
  | KcNoInputs => Ok (constructor_no_more_inputs p)
  | KcNoOutputs => Ok (constructor_no_more_outputs p)
  end.
Fixpoint do_kcalls {E} (p : psbt) (l : list kcall) : res E psbt :=
  match l with [] => Ok p | c :: r => p' <- do_kcall p c ;; do_kcalls p' r end.
(** [Creator::new()], calls, [constructor_*()], calls. *)
Definition construct {E} (k : ckind) (cs : list ccall) (ks : list kcall) : res E psbt :=
  do_kcalls (creator_constructor k (fold_left do_ccall cs creator_new)) ks.

(** The PSBT that was asked for. *)
Record as_asked (k : ckind) (cs : list ccall) (ks : list kcall) (p : psbt) : Prop := {
  aa_inputs : p_inputs p = all_of kc_input ks;
  aa_outputs : p_outputs p = all_of kc_output ks;
  aa_version : g_tx_version (p_global p) = match latest cc_version cs with Some v => v | None => 2 end;
  aa_fallback : g_fallback_lock_time (p_global p) = latest cc_fallback cs;
  aa_flags : forall b, N.testbit (g_tx_modifiable_flags (p_global p)) b = true <->
    (b = 0 /\ takes_inputs k /\ ~ In KcNoInputs ks)
    \/ (b = 1 /\ takes_outputs k /\ ~ In KcNoOutputs ks)
    \/ (b = 2 /\ In CcSingle cs);
  aa_psbt_version : g_version (p_global p) = 2;
  aa_nothing_else : g_xpubs (p_global p) = [] /\ g_sp_ecdh_shares (p_global p) = [] /\ g_sp_dleq_proofs (p_global p) = []
    /\ g_proprietaries (p_global p) = [] /\ g_unknowns (p_global p) = [];
  aa_input_count : g_input_count (p_global p) = N.of_nat (length (all_of kc_input ks));
  aa_output_count : g_output_count (p_global p) = N.of_nat (length (all_of kc_output ks))
}.
End Build.
