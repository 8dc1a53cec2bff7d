(** Specification of the PSBT roles (BIP-174, BIP-370), independent of the code's helpers. *)
From Verif Require Import Base Consensus Ext SpecCodec V2Global V2Input V2Output V2Psbt V2Roles.
Local Open Scope N_scope.

(** ** Lock time (BIP-370, "Determining Lock Time") *)

(** The input can only be satisfied by a time, respectively by a height. *)
Definition only_time (i : input) : Prop := in_min_time i <> None /\ in_min_height i = None.
Definition only_height (i : input) : Prop := in_min_height i <> None /\ in_min_time i = None.
(** The input requires some lock time. *)
Definition needs_lock (i : input) : Prop := in_min_time i <> None \/ in_min_height i <> None.

(** [m] is the greatest of the values of the field. *)
Definition greatest (field : input -> option N) (l : list input) (m : N) : Prop :=
  (exists i, In i l /\ field i = Some m) /\
  (forall i n, In i l -> field i = Some n -> n <= m).

(** The lock time of a PSBT; [None] when there is none. *)
Inductive bip370_lock_time (p : psbt) : option N -> Prop :=
| LConflict i j :
    In i (p_inputs p) -> In j (p_inputs p) -> only_time i -> only_height j ->
    bip370_lock_time p None
| LFallback :
    (forall i, In i (p_inputs p) -> ~ needs_lock i) ->
    bip370_lock_time p
      (Some (match g_fallback_lock_time (p_global p) with Some n => n | None => 0 end))
| LHeight h :
    (forall i, In i (p_inputs p) -> needs_lock i -> in_min_height i <> None) ->
    greatest in_min_height (p_inputs p) h ->
    bip370_lock_time p (Some h)
| LTime t i :
    In i (p_inputs p) -> only_time i ->
    (forall j, In j (p_inputs p) -> needs_lock j -> in_min_time j <> None) ->
    greatest in_min_time (p_inputs p) t ->
    bip370_lock_time p (Some t).

(** ** The transaction of a PSBT *)

(** The output an input spends. *)
Definition funds (i : input) (u : txout) : Prop :=
  in_witness_utxo i = Some u
  \/ in_witness_utxo i = None
     /\ exists t, in_non_witness_utxo i = Some t
                  /\ nth_error (tx_output t) (N.to_nat (in_spent_output_index i)) = Some u.

(** What the unsigned transaction takes from an input and an output. *)
Definition outpoint_of (i : input) : bytes * N := (in_previous_txid i, in_spent_output_index i).
Definition payment_of (o : output) : N * bytes := (out_amount o, out_script_pubkey o).

(** Wire format of a transaction with empty scriptSigs and zero sequences. *)
Definition id_preimage (version lock : N) (ops : list (bytes * N)) (outs : list (N * bytes)) (b : bytes) : Prop :=
  exists ci co ss,
    compact_size (blen ops) ci /\ compact_size (blen outs) co /\
    Forall2 (fun o s => exists c, compact_size (blen (snd o)) c /\ s = le_enc 8 (fst o) ++ c ++ snd o) outs ss /\
    b = le_enc 4 version
        ++ ci ++ concat (map (fun op => fst op ++ le_enc 4 (snd op) ++ [x00] ++ repeat x00 4) ops)
        ++ co ++ concat ss
        ++ le_enc 4 lock.

(** The data of a PSBT that goes into its transaction fits the integer types. *)
Definition tx_data_fits (p : psbt) : Prop :=
  g_tx_version (p_global p) < 2 ^ 32 /\
  blen (p_inputs p) < 2 ^ 64 /\ blen (p_outputs p) < 2 ^ 64 /\
  Forall (fun i => length (in_previous_txid i) = 32%nat /\ in_spent_output_index i < 2 ^ 32) (p_inputs p) /\
  Forall (fun o => out_amount o < 2 ^ 64 /\ blen (out_script_pubkey o) < 2 ^ 64) (p_outputs p).

(** Two PSBTs agree on everything a transaction id depends on. *)
Definition same_tx_fields (p q : psbt) : Prop :=
  g_tx_version (p_global p) = g_tx_version (p_global q) /\
  g_fallback_lock_time (p_global p) = g_fallback_lock_time (p_global q) /\
  Forall2 (fun i j => outpoint_of i = outpoint_of j
                      /\ in_min_time i = in_min_time j /\ in_min_height i = in_min_height j)
          (p_inputs p) (p_inputs q) /\
  Forall2 (fun o o' => payment_of o = payment_of o') (p_outputs p) (p_outputs q).

(** The transaction an extractor must produce. *)
Record extracted (p : psbt) (lock : N) (t : tx) : Prop := {
  ex_version : tx_version t = g_tx_version (p_global p);
  ex_lock : tx_lock_time t = lock;
  ex_inputs : Forall2 (fun i ti =>
    (ti_txid ti, ti_vout ti) = outpoint_of i
    /\ in_final_script_sig i = Some (ti_script_sig ti)
    /\ in_final_script_witness i = Some (ti_witness ti)
    /\ ti_sequence ti = match in_sequence i with Some n => n | None => 2 ^ 32 - 1 end)
    (p_inputs p) (tx_input t);
  ex_outputs : Forall2 (fun o to => (to_value to, to_script to) = payment_of o)
    (p_outputs p) (tx_output t)
}.

(** A transaction without its signatures. *)
Definition strip_signatures (t : tx) : tx :=
  Tx (tx_version t) (tx_lock_time t)
     (map (fun i => TxIn (ti_txid i) (ti_vout i) [] (ti_sequence i) []) (tx_input t)) (tx_output t).

(** Both final fields are present. *)
Definition finalized (i : input) : Prop :=
  in_final_script_sig i <> None /\ in_final_script_witness i <> None.

Definition total (l : list N) : N := fold_right N.add 0 l.

(** The values of the outputs spent by some inputs. *)
Definition funded (l : list input) (vs : list N) : Prop :=
  Forall2 (fun i v => exists u, funds i u /\ to_value u = v) l vs.

(** ** Construction *)

(** What a value in the construction of a PSBT is. *)
Inductive stage : Type := SCreator | SConstructor (k : ckind) | SPsbt | SUpdater.
(** The constructors that have a method [input], respectively [output]. *)
Definition takes_inputs (k : ckind) : Prop := k = KModifiable \/ k = KInputsOnly.
Definition takes_outputs (k : ckind) : Prop := k = KModifiable \/ k = KOutputsOnly.

Section Construction.
Context `{X : Ext} `{C : Cfg}.

(** [built s p is os]: calls of the public API starting from [Creator::new()] lead to the
    value [p] at stage [s]; the inputs [is] and the outputs [os] were added, in order. *)
Inductive built : stage -> psbt -> list input -> list output -> Prop :=
| BNew : built SCreator creator_new [] []
| BFallback n p is os : built SCreator p is os -> built SCreator (creator_fallback_lock_time n p) is os
| BSingle p is os : built SCreator p is os -> built SCreator (creator_sighash_single p) is os
| BInputs p is os : built SCreator p is os -> built SCreator (creator_inputs_modifiable p) is os
| BOutputs p is os : built SCreator p is os -> built SCreator (creator_outputs_modifiable p) is os
| BVersion v p is os : built SCreator p is os -> built SCreator (creator_transaction_version v p) is os
| BCreatorPsbt p is os : built SCreator p is os -> built SPsbt (creator_psbt p) is os
| BConstructor k p is os : built SCreator p is os -> built (SConstructor k) (creator_constructor k p) is os
| BConstructorNew k p q is os :
    built SPsbt p is os -> constructor_new k p = Ok q -> built (SConstructor k) q is os
| BInput k i p q is os :
    takes_inputs k -> built (SConstructor k) p is os ->
    constructor_input i p = Ok (E := Empty_set) q -> built (SConstructor k) q (is ++ [i]) os
| BOutput k o p q is os :
    takes_outputs k -> built (SConstructor k) p is os ->
    constructor_output o p = Ok (E := Empty_set) q -> built (SConstructor k) q is (os ++ [o])
| BNoMoreInputs k p is os :
    built (SConstructor k) p is os -> built (SConstructor k) (constructor_no_more_inputs p) is os
| BNoMoreOutputs k p is os :
    built (SConstructor k) p is os -> built (SConstructor k) (constructor_no_more_outputs p) is os
| BPsbt k p q is os :
    built (SConstructor k) p is os -> constructor_psbt p = Ok q -> built SPsbt q is os
| BUpdater k p q is os :
    built (SConstructor k) p is os -> constructor_updater p = Ok q -> built SUpdater q is os.

(** Values of the types [Updater], [Signer] and [Extractor] that the public API yields. *)
Inductive updater_value : psbt -> Prop :=
| UNew p q : updater_new p = Ok q -> updater_value q
| UConstructor p q : constructor_updater p = Ok q -> updater_value q
| USequence n k p q : updater_value p -> updater_set_sequence n k p = Ok q -> updater_value q.
Inductive signer_value : psbt -> Prop :=
| SNew p q : signer_new p = Ok q -> signer_value q
| SClear ty p : signer_value p -> signer_value (signer_clear_tx_modifiable ty p).
Inductive extractor_value : psbt -> Prop :=
| ENew p q : extractor_new p = Ok q -> extractor_value q.

End Construction.
