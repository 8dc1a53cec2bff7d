(** What the texts of the errors of the roles tell, and when it is true: facts about the PSBT beside
    the texts.  Types of rust-bitcoin are printed with [printers]. *)
From Coq Require Import Strings.String.
From Verif Require Import Base OMap Consensus Ext Raw TapTree Serialize MapCodec SighashType V2Global V2Input V2Output
  V2Psbt V2Roles SpecRoles SpecCombine SpecCombineErr V2Sign SpecSign V2Finalize SpecFinalize SpecFinalizeErr
  V0Error V0Input V0Output V0Psbt SpecExtract0 V0Sign SpecSign0 V0Finalize SpecFinalize0 V0Update SpecUpdate0
  SpecErrorQuote RoleErrorText.
Local Open Scope N_scope.

(** An error is reported with its text and those of its sources. *)
Inductive role_report (P : printers) : rerr -> list bytes -> Prop :=
| RRLast e t : role_text P e = Ok t -> role_source P e = Ok None -> role_report P e [t]
| RRMore e t e' l : role_text P e = Ok t -> role_source P e = Ok (Some e') -> role_report P e' l -> role_report P e (t :: l).

(** A text with one number. *)
Definition shows_number (before : string) (n : N) (after : string) (t : bytes) : Prop :=
  exists d, in_decimal d n /\ t = str before ++ d ++ str after.

(** ** Combining: what differs, this PSBT before that one *)

Inductive combine_words (P : printers) (a b : psbt) : list bytes -> Prop :=
| CWVersion t : g_version (p_global a) <> g_version (p_global b) ->
    shows_lengths "combine two PSBTs with different versions: Version(" ") Version(" ")"
      (g_version (p_global a)) (g_version (p_global b)) t ->
    combine_words P a b [str "error while combining the global maps"; t]
| CWTxVersion : g_tx_version (p_global a) <> g_tx_version (p_global b) ->
    combine_words P a b [str "error while combining the global maps";
      str "combine two PSBTs with different tx versions: " ++ pr_txversion P (g_tx_version (p_global a)) ++ str " "
      ++ pr_txversion P (g_tx_version (p_global b))]
| CWKeySources x : xpub_conflict (g_xpubs (p_global a)) (g_xpubs (p_global b)) x ->
    combine_words P a b [str "error while combining the global maps"; str "combine with inconsistent key sources";
      str "combining PSBT, key-source conflict for xpub " ++ pr_xpub P x]
| CWTxid n i j : first_at same_point (p_inputs a) (p_inputs b) n i j -> in_previous_txid i <> in_previous_txid j ->
    combine_words P a b [str "error while combining the input maps";
      str "combine two PSBTs with different previous txids: " ++ pr_txid P (in_previous_txid i) ++ str " "
      ++ pr_txid P (in_previous_txid j)]
| CWVout n i j t : first_at same_point (p_inputs a) (p_inputs b) n i j ->
    in_spent_output_index i <> in_spent_output_index j ->
    shows_lengths "combine two PSBTs with different spent output indecies: " " " ""
      (in_spent_output_index i) (in_spent_output_index j) t ->
    combine_words P a b [str "error while combining the input maps"; t]
| CWAmount n o o' : first_at same_payment (p_outputs a) (p_outputs b) n o o' -> out_amount o <> out_amount o' ->
    combine_words P a b [str "error while combining the output maps";
      str "combine two PSBTs with different amounts: " ++ pr_amount P (out_amount o) ++ str " "
      ++ pr_amount P (out_amount o')]
| CWScript n o o' s s' : first_at same_payment (p_outputs a) (p_outputs b) n o o' ->
    out_script_pubkey o <> out_script_pubkey o' -> in_hex s (out_script_pubkey o) -> in_hex s' (out_script_pubkey o') ->
    combine_words P a b [str "error while combining the output maps";
      str "combine two PSBTs with different script_pubkeys: " ++ s ++ str " " ++ s'].

(** ** Funding outputs, fee and extraction *)

(** The output that an input spends is not known. *)
Inductive utxo_words (i : input) : bytes -> Prop :=
| UWNone : in_witness_utxo i = None -> in_non_witness_utxo i = None -> utxo_words i (str "no funding utxo found")
| UWVout t w : in_witness_utxo i = None -> in_non_witness_utxo i = Some t ->
    blen (tx_output t) <= in_spent_output_index i ->
    shows_lengths "vout " " out of bounds for tx list len: " "" (in_spent_output_index i) (blen (tx_output t)) w ->
    utxo_words i w.

Definition is_funded (i : input) : Prop := exists u, funds i u.
Inductive fee_words (p : psbt) : list bytes -> Prop :=
| FWUtxo l1 i l2 w : p_inputs p = l1 ++ i :: l2 -> Forall is_funded l1 -> utxo_words i w ->
    fee_words p [str "funding utxo error for input"; w]
| FWInput l1 i l2 vs u : p_inputs p = l1 ++ i :: l2 -> funded l1 vs -> funds i u -> 2 ^ 64 <= total vs + to_value u ->
    fee_words p [str "integer overflow in fee calculation adding input"]
| FWOutput : 2 ^ 64 <= total (map out_amount (p_outputs p)) ->
    fee_words p [str "integer overflow in fee calculation adding output"]
| FWNegative vs : funded (p_inputs p) vs -> total vs < total (map out_amount (p_outputs p)) ->
    fee_words p [str "PSBT has a negative fee which is not allowed"].

Definition no_lock_time_words : bytes :=
  str "unable to determine lock time, multiple inputs have conflicting locking requirements".
Inductive extractor_words (p : psbt) : list bytes -> Prop :=
| EWFinal i : In i (p_inputs p) -> ~ finalized i ->
    extractor_words p [str "attempted to extract tx from an unfinalized PSBT"]
| EWLock : bip370_lock_time p None ->
    extractor_words p [str "extractor must be able to determine the lock time"; no_lock_time_words].

(** The rate is per thousand weight units; as long as the fee is not huge it is that of the
    transaction. *)
Inductive extract_words `{C : Cfg} (P : printers) (max : N) (p : psbt) : list bytes -> Prop :=
| XWFee l : fee_words p l -> extract_words P max p (str "fee calculation" :: l)
| XWRate vs n t rate : funded (p_inputs p) vs -> extracted p n t -> max < rate ->
    (let fee := total vs - total (map out_amount (p_outputs p)) in fee * 1000 < 2 ^ 64 -> rate = fee * 1000 / tx_weight t) ->
    extract_words P max p [str "fee " ++ pr_rate P rate ++ str " is greater than max " ++ pr_rate P max].

(** ** Constructor and updater *)

Definition flag_clear (b : N) (p : psbt) : Prop := N.testbit (g_tx_modifiable_flags (p_global p)) b = false.
(** The constructor for inputs and outputs has an error of its own, the others have only the
    second part. *)
Inductive constructor_words (p : psbt) : ckind -> list bytes -> Prop :=
| KWInputs : flag_clear 0 p ->
    constructor_words p KInputsOnly [str "PSBT does not have the inputs modifiable flag set"]
| KWOutputs : flag_clear 1 p ->
    constructor_words p KOutputsOnly [str "PSBT does not have the outputs modifiable flag set"]
| KWBothInputs : flag_clear 0 p ->
    constructor_words p KModifiable [str "inputs not modifiable"; str "PSBT does not have the inputs modifiable flag set"]
| KWBothOutputs : flag_clear 1 p ->
    constructor_words p KModifiable [str "outputs not modifiable"; str "PSBT does not have the outputs modifiable flag set"].

Inductive index_words (k : N) (p : psbt) : list bytes -> Prop :=
| IWInputs t : blen (p_inputs p) <= k ->
    shows_lengths "index " " is out-of-bounds for PSBT inputs vector length " "" k (blen (p_inputs p)) t ->
    index_words k p [t]
| IWCount t : k < blen (p_inputs p) -> g_input_count (p_global p) <= k ->
    shows_lengths "index " " is greater global.input_count " "" k (g_input_count (p_global p)) t ->
    index_words k p [t].

(** ** Signer *)

Inductive sign_words (i : input) : list bytes -> Prop :=
| SWType : (forall ty, ~ type_of_input i ty) -> sign_words i [str "invalid sighash type"]
| SWRedeem u : funds i u -> p2sh (to_script u) -> in_redeem_script i = None -> sign_words i [str "missing redeem script"]
| SWWitness u h : funds i u -> p2wsh_hash (to_script u) h \/ (exists r, in_redeem_script i = Some r /\ p2wsh_hash r h) ->
    in_witness_script i = None -> sign_words i [str "missing witness script"].

(** ** Finalizer *)

Definition standard_types : list N := [0x01; 0x02; 0x03; 0x81; 0x82; 0x83].
(** Number [n] is the index of the input. *)
Inductive sighash_words (P : printers) (n : N) (i : input) : list bytes -> Prop :=
| HWInput ty t : in_sighash_type i = Some ty -> ~ In ty standard_types ->
    shows_number "non-standard sighash type for input " n " in sighash_type field" t ->
    sighash_words P n i [t; pr_nonstandard P ty]
| HWSig k s t : In (k, s) (in_partial_sigs i) -> ~ In (es_type s) standard_types ->
    shows_number "non-standard sighash type for input " n " in partial_sigs" t ->
    sighash_words P n i [t; pr_nonstandard P (es_type s)]
| HWFlag ty k s d : type_of_input i ty -> In (k, s) (in_partial_sigs i) -> es_type s <> ty -> in_decimal d n ->
    sighash_words P n i [str "wrong sighash flag for input " ++ d ++ str " (got: " ++ pr_type P (es_type s)
      ++ str ", required: " ++ pr_type P ty ++ str ") pubkey: " ++ pr_key P k].
Inductive finalizer_words (P : printers) (p : psbt) : list bytes -> Prop :=
| ZWUtxo l1 i l2 w : p_inputs p = l1 ++ i :: l2 -> Forall is_funded l1 -> utxo_words i w ->
    finalizer_words P p [str "Finalizer missing funding UTXO"; w]
| ZWLock : bip370_lock_time p None ->
    finalizer_words P p [str "finalizer must be able to determine the lock time"; no_lock_time_words]
| ZWSigs l1 i l2 l : p_inputs p = l1 ++ i :: l2 -> Forall sigs_match l1 -> sighash_words P (blen l1) i l ->
    finalizer_words P p (str "Finalizer sighash type error" :: l).

(** The words for a problem; the third has no verb. *)
Definition problem_words (P : printers) (q : problem) : list bytes :=
  match q with
  | BadKey => [str "Key Err: " ++ pr_other P; pr_other P]
  | NoSigningKey => [str "Missing pubkey for a pkh/wpkh"]
  | NoRedeemScript => [str "PSBT is Redeem script"]
  | WrongRedeemScript r e => [str "Redeem script " ++ pr_script P r ++ str " does not match the p2sh script " ++ pr_script P e]
  | ExtraRedeemScript => [str "PSBT has non-empty redeem script at for legacy transactions"]
  | NoWitnessScript => [str "PSBT is missing witness script"]
  | WrongWitnessScript w e => [str "Witness script " ++ pr_script P w ++ str " does not match the p2wsh script " ++ pr_script P e]
  | ExtraWitnessScript => [str "PSBT has non-empty witness script at for legacy input"]
  | NotSatisfied => [str "Miniscript Error: " ++ pr_other P; pr_other P]
  | NoTaprootPath => [str "Could not satisfy Tr descriptor"]
  end.
Inductive finalize_words `{X : Ext} `{C : Cfg} `{M : MsExt} (P : printers) (p : psbt) : list bytes -> Prop :=
| YWProblem l1 i l2 u q t : p_inputs p = l1 ++ i :: l2 -> Forall (fun j => forall e, ~ why p j e) l1 ->
    funds i u -> cannot (spending_of (p_inputs p) i u) q ->
    shows_number "failed to finalize input at index " (blen l1) "" t ->
    finalize_words P p (t :: str "final" :: problem_words P q)
| YWLegacy l1 i l2 u t : p_inputs p = l1 ++ i :: l2 -> Forall (fun j => forall e, ~ why p j e) l1 ->
    funds i u -> in_witness_utxo i <> None -> ~ witness_output (spending_of (p_inputs p) i u) ->
    shows_number "failed to finalize input at index " (blen l1) "" t ->
    finalize_words P p [t; str "input"; str "failed to create a final witness"]
(* what was found does not spend the output, in the transaction with the lock times removed *)
| YWCheck n i u ss w v tx us t : Forall (fun j => forall e, ~ why p j e) (p_inputs p) ->
    nth_error (p_inputs p) n = Some i -> funds i u -> computed p i ss w -> unsigned_tx p = Ok tx -> Forall2 funds (p_inputs p) us ->
    ms_interpret (to_script u) ss w (2 ^ 32 - 1) 0 (relocked 0 (fallback_lock p) tx) (N.of_nat n) us = v -> v <> IOk ->
    shows_number (match v with IConstructor => "Interpreter constructor failed for input "
                          | _ => "Interpreter satisfaction failed for input " end) (N.of_nat n) "" t ->
    finalize_words P p [str "error running the interpreter checks"; str "interpreter check failed for input"; t; pr_other P].

(** ** Version 0 *)

Inductive fee_limit_words0 (P : printers) (max : N) (p : psbt0) : bytes -> Prop :=
| XW0Value : (exists s, In s (spends p) /\ no_utxo s) ->
    fee_limit_words0 P max p (str "One of the inputs lacked value information (witness_utxo or non_witness_utxo)")
| XW0Negative vs : funded0 (spends p) vs -> total vs < total (pays0 p) ->
    fee_limit_words0 P max p (str "Transaction would be invalid due to output value being greater than input value.")
| XW0Rate vs t rate : funded0 (spends p) vs -> extracted0 p t -> max < rate ->
    (let fee := total vs - total (pays0 p) in fee * 1000 < 2 ^ 64 -> rate = fee * 1000 / tx_weight t) ->
    fee_limit_words0 P max p (str "An absurdly high fee rate of " ++ pr_rate P rate)
(* too many satoshis to be counted: the rate is the largest number *)
| XW0Overflow vs l1 l2 : spends p = l1 ++ l2 -> funded0 l1 vs -> 2 ^ 64 <= total vs \/ 2 ^ 64 <= total (pays0 p) ->
    fee_limit_words0 P max p (str "An absurdly high fee rate of " ++ pr_rate P (2 ^ 64 - 1)).

Inductive sign_words0 (P : printers) (p : psbt0) (n : N) (s : txin * input0) : list bytes -> Prop :=
| SW0Utxo s' : In s' (spends p) -> no_utxo s' -> sign_words0 P p n s [str "missing spend utxo in PSBT"]
| SW0Kind u : funds0 s u -> (forall o, ~ spends_kind s o) -> sign_words0 P p n s [str "unable to determine the output type"]
| SW0Type : spends_ecdsa s -> (forall ty, ~ type_of_input0 (snd s) ty) -> sign_words0 P p n s [str "invalid sighash type"]
| SW0TapType : spends_taproot s -> (forall ty, ~ taproot_type_of_input (snd s) ty) ->
    sign_words0 P p n s [str "invalid sighash type"]
| SW0Redeem : spends_kind s Sh -> i0_redeem_script (snd s) = None -> sign_words0 P p n s [str "missing redeem script"]
| SW0Witness : spends_kind s Wsh \/ spends_kind s ShWsh -> i0_witness_script (snd s) = None ->
    sign_words0 P p n s [str "missing witness script"]
| SW0Single ty : spends_taproot s -> taproot_type_of_input (snd s) ty -> In ty [0x03; 0x83] ->
    blen (tx_output (p0_unsigned_tx p)) <= n -> sign_words0 P p n s [str "taproot sighash"; pr_other P].

Inductive finalize_words0 `{X : Ext} `{M : MsExt} `{NM : !MsNmExt M} (P : printers) (mall : bool) (p : psbt0) (n : N) : bytes -> Prop :=
| YW0Utxo s k t : spend_at p k s -> no_utxo s ->
    shows_number "PSBT is missing both witness and non-witness UTXO at index " k "" t -> finalize_words0 P mall p n t
| YW0Problem s u q t d : spend_at p n s -> funds0 s u -> cannot (spending_of0 mall p s u) q ->
    hd_error (problem_words P q) = Some t -> in_decimal d n -> finalize_words0 P mall p n (t ++ str " at index " ++ d)
| YW0Check w ss d : no_problem0 mall p n -> built mall p n w ss -> ~ accepted p n w ss -> in_decimal d n ->
    finalize_words0 P mall p n (str "Interpreter: " ++ pr_other P ++ str " at index " ++ d).

Section Update.
Context `{X : Ext} `{T : SchnorrExt} `{D : !DescExt}.
Inductive input_update_words (P : printers) (n : N) (d : descr dkey) (p : psbt0) : bytes -> Prop :=
| UWIndex t : blen (p0_inputs p) <= n -> shows_lengths "index " ", psbt input len: " "" n (blen (p0_inputs p)) t ->
    input_update_words P n d p t
| UWMissing : blen (tx_input (p0_unsigned_tx p)) <= n -> input_update_words P n d p (str "Missing input in unsigned transaction")
| UWUtxo s : spend_at p n s -> (forall u, ~ spendable d s u) ->
    input_update_words P n d p (str "The input's witness_utxo and/or non_witness_utxo were invalid or missing")
| UWKeys k : In k (all_keys d) -> dk_pub k = None -> input_update_words P n d p (str "Key derivation error " ++ pr_other P)
| UWScript s u d' : spend_at p n s -> spendable d s u -> derives d d' -> to_script u <> spk_of d' ->
    input_update_words P n d p
      (str "The input's witness_utxo and/or non_witness_utxo had a script pubkey that didn't match the descriptor").
Inductive output_update_words (P : printers) (n : N) (d : descr dkey) (p : psbt0) : bytes -> Prop :=
| OWIndex t : blen (p0_outputs p) <= n -> shows_lengths "index " ", psbt output len: " "" n (blen (p0_outputs p)) t ->
    output_update_words P n d p t
| OWMissing : blen (tx_output (p0_unsigned_tx p)) <= n -> output_update_words P n d p (str "Missing txout in the unsigned transaction")
| OWKeys k : In k (all_keys d) -> dk_pub k = None -> output_update_words P n d p (str "Key derivation error " ++ pr_other P)
| OWScript u d' : nth_error (tx_output (p0_unsigned_tx p)) (N.to_nat n) = Some u -> derives d d' -> to_script u <> spk_of d' ->
    output_update_words P n d p (str "The output's script pubkey didn't match the descriptor").
End Update.

Inductive message_words (P : printers) (p : psbt0) (n : N) : bytes -> Prop :=
| MWIndex t : blen (p0_inputs p) <= n -> shows_lengths "index " ", psbt input len: " "" n (blen (p0_inputs p)) t ->
    message_words P p n t
| MWUtxo s : In s (spends p) -> no_utxo s -> message_words P p n (str "Missing Psbt spend utxos")
| MWType s : spend_at p n s -> ~ spends_taproot s -> (forall ty, ~ type_of_input0 (snd s) ty) ->
    message_words P p n (str "Invalid Sighash type")
| MWTapType s : spend_at p n s -> spends_taproot s -> (forall ty, ~ taproot_type_of_input (snd s) ty) ->
    message_words P p n (str "Invalid Sighash type")
| MWRedeem s : spend_at p n s -> spends_kind s Sh -> i0_redeem_script (snd s) = None ->
    message_words P p n (str "Missing Redeem Script")
| MWWitness s : spend_at p n s -> spends_kind s Wsh \/ spends_kind s ShWsh -> i0_witness_script (snd s) = None ->
    message_words P p n (str "Missing Witness Script")
| MWSingle s ty : spend_at p n s -> spends_taproot s -> taproot_type_of_input (snd s) ty -> In ty [0x03; 0x83] ->
    blen (tx_output (p0_unsigned_tx p)) <= n -> message_words P p n (str "sighash taproot: " ++ pr_other P).
