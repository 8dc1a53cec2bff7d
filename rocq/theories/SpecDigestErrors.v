(** What the texts of the errors of [sighash_ecdsa] and of the checked extraction tell, and when it is
    true. *)
From Coq Require Import Strings.String.
From Verif Require Import Base OMap Consensus Ext Raw TapTree Serialize MapCodec SighashType V2Global V2Input V2Output
  V2Psbt V2Roles SpecRoles V2Sign SpecSign V2Finalize SpecFinalize
  V0Error V0Input V0Output V0Psbt SpecExtract0 V0Sign SpecSign0 V0Finalize SpecFinalize0
  SpecErrorQuote RoleErrorText SpecRoleErrors.
Local Open Scope N_scope.

(** ** The digest of an input, for a transaction that need not be that of the PSBT *)

Inductive digest_words (P : printers) (p : psbt) (n : N) (t : tx) : list bytes -> Prop :=
| DWIndex w : index_words n p [w] -> digest_words P p n t [str "index out of bounds"; w]
| DWUtxo i w : input_at p n i -> utxo_words i w -> digest_words P p n t [str "input funding utxo error"; w]
| DWKind i u : input_at p n i -> funds i u -> (forall o, ~ output_kind (to_script u) (in_redeem_script i) o) ->
    digest_words P p n t [str "unable to determine the output type"]
| DWTaproot i u k : input_at p n i -> funds i u -> p2tr_key (to_script u) k ->
    digest_words P p n t [str "attempt to sign an input with the wrong signing algorithm"]
| DWSign i l : input_at p n i -> sign_words i l -> digest_words P p n t l
(* the transaction has no such input *)
| DWWsh i u o : input_at p n i -> funds i u -> output_kind (to_script u) (in_redeem_script i) o -> o = Wsh \/ o = ShWsh ->
    blen (tx_input t) <= n -> digest_words P p n t [str "segwit v0 sighash"; pr_other P]
| DWWpkh i u o : input_at p n i -> funds i u -> output_kind (to_script u) (in_redeem_script i) o -> o = Wpkh \/ o = ShWpkh ->
    blen (tx_input t) <= n -> digest_words P p n t [str "p2wpkh sighash"; pr_other P].

Inductive digest_words0 (P : printers) (p : psbt0) (n : N) (t : tx) : list bytes -> Prop :=
| DW0Inputs w : blen (p0_inputs p) <= n ->
    shows_lengths "index " " is out-of-bounds for PSBT inputs vector length " "" n (blen (p0_inputs p)) w ->
    digest_words0 P p n t [str "index out of bounds"; w]
| DW0TxInputs w : n < blen (p0_inputs p) -> blen (tx_input (p0_unsigned_tx p)) <= n ->
    shows_lengths "index " " is out-of-bounds for PSBT unsigned tx input vector length " "" n
      (blen (tx_input (p0_unsigned_tx p))) w ->
    digest_words0 P p n t [str "index out of bounds"; w]
| DW0Utxo s : spend_at p n s -> no_utxo s -> digest_words0 P p n t [str "missing spend utxo in PSBT"]
| DW0Kind s u : spend_at p n s -> funds0 s u -> (forall o, ~ spends_kind s o) ->
    digest_words0 P p n t [str "unable to determine the output type"]
| DW0Taproot s : spend_at p n s -> spends_taproot s ->
    digest_words0 P p n t [str "attempt to sign an input with the wrong signing algorithm"]
| DW0Type s : spend_at p n s -> spends_ecdsa s -> (forall ty, ~ type_of_input0 (snd s) ty) ->
    digest_words0 P p n t [str "invalid sighash type"]
| DW0Redeem s : spend_at p n s -> spends_kind s Sh -> i0_redeem_script (snd s) = None ->
    digest_words0 P p n t [str "missing redeem script"]
| DW0Witness s : spend_at p n s -> spends_kind s Wsh \/ spends_kind s ShWsh -> i0_witness_script (snd s) = None ->
    digest_words0 P p n t [str "missing witness script"]
| DW0Wsh s : spend_at p n s -> spends_kind s Wsh \/ spends_kind s ShWsh -> blen (tx_input t) <= n ->
    digest_words0 P p n t [str "segwit v0 sighash"; pr_other P]
| DW0Wpkh s : spend_at p n s -> spends_kind s Wpkh \/ spends_kind s ShWpkh -> blen (tx_input t) <= n ->
    digest_words0 P p n t [str "p2wpkh sighash"; pr_other P].

(** ** Checked extraction *)

Definition input0_at (p : psbt0) (n : N) (i : input0) : Prop := nth_error (p0_inputs p) (N.to_nat n) = Some i.
Inductive checked_extract_words0 `{X : Ext} `{M : MsExt} (P : printers) (p : psbt0) : bytes -> Prop :=
| CX0Count t : blen (tx_input (p0_unsigned_tx p)) <> blen (p0_inputs p) ->
    shows_lengths "PSBT had " " inputs in transaction but " " inputs in map"
      (blen (tx_input (p0_unsigned_tx p))) (blen (p0_inputs p)) t -> checked_extract_words0 P p t
| CX0Type n i d : input0_at p n i -> (forall ty, ~ type_of_input0 i ty) -> in_decimal d n ->
    checked_extract_words0 P p (str "Non-standard sighash type " ++ pr_other P ++ str " at index " ++ d)
| CX0SigType n i k s d : input0_at p n i -> In (k, s) (i0_partial_sigs i) -> ~ In (es_type s) standard_types -> in_decimal d n ->
    checked_extract_words0 P p (str "Interpreter: " ++ pr_other P ++ str " at index " ++ d)
| CX0Flag n i k s ty d : input0_at p n i -> In (k, s) (i0_partial_sigs i) -> type_of_input0 i ty -> es_type s <> ty -> in_decimal d n ->
    checked_extract_words0 P p (str "PSBT: signature with key " ++ pr_key_debug P k ++ str " had sighashflag "
      ++ pr_type_debug P (es_type s) ++ str " rather than required " ++ pr_type_debug P ty ++ str " at index " ++ d)
| CX0Final n i t : input0_at p n i -> i0_final_script_sig i = None -> i0_final_script_witness i = None ->
    shows_number "PSBT is missing witness at index " n "" t -> checked_extract_words0 P p t
| CX0Utxo n s t : spend_at p n s -> no_utxo s ->
    shows_number "PSBT is missing both witness and non-witness UTXO at index " n "" t -> checked_extract_words0 P p t
(* the final scripts, empty where there are none, do not spend the output *)
| CX0Check n i w ss d : input0_at p n i -> i0_final_script_witness i = Some w \/ (i0_final_script_witness i = None /\ w = []) ->
    i0_final_script_sig i = Some ss \/ (i0_final_script_sig i = None /\ ss = []) -> ~ accepted p n w ss -> in_decimal d n ->
    checked_extract_words0 P p (str "Interpreter: " ++ pr_other P ++ str " at index " ++ d).
