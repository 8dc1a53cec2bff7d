(** Model of the texts of the errors of the roles: [Display] and [Error::source] of src/error.rs,
    src/v2/error.rs:70-386, src/v2/mod.rs:1115-1149 and 1319-1356, src/v2/map/global.rs:733-779,
    src/v2/map/input.rs:1034-1095, src/v2/map/output.rs:446-487, src/v2/extract.rs:131-236,
    src/v2/miniscript/finalize.rs:374-661, src/v2/miniscript/mod.rs:145-229,
    src/v0/bitcoin/mod.rs:860-1150 and src/v0/miniscript/mod.rs:38-231, 1218-1380.

    Builds with std: [write_err!] (src/error.rs:109-123) leaves out the error that is wrapped. *)
From Coq Require Import Strings.String.
From Verif Require Import Base OMap Consensus Ext Raw TapTree Serialize MapCodec SighashType V2Global V2Input V2Output
  V2Psbt V2Roles V2Sign V2Finalize V0Error V0Input V0Output V0Psbt V0Sign V0Finalize V0Update ErrorText.
Local Open Scope N_scope.

(** Printing of the types of rust-bitcoin that occur in the texts, and the texts of the errors of
    other crates, of which the model does not have the data. *)
Record printers := Printers {
  (* [{}] of [Xpub] (src/error.rs:14) *)
  pr_xpub : xpub -> bytes;
  (* [{:?}] of [transaction::Version] (src/v2/map/global.rs:760) *)
  pr_txversion : N -> bytes;
  (* [{:?}] of [Txid] (src/v2/map/input.rs:1075) *)
  pr_txid : bytes -> bytes;
  (* [{}] of [Amount] (src/v2/map/output.rs:469) *)
  pr_amount : N -> bytes;
  (* [{}] of [ScriptBuf] (src/v2/miniscript/finalize.rs:606-615) *)
  pr_script : bytes -> bytes;
  (* [{}] of [FeeRate] (src/v2/extract.rs:188) *)
  pr_rate : N -> bytes;
  (* [{}] and [{:?}] of [PublicKey] (src/v2/error.rs:366, src/v2/miniscript/finalize.rs:633) *)
  pr_key : pubkey -> bytes;
  pr_key_debug : pubkey -> bytes;
  (* [{}] and [{:?}] of [EcdsaSighashType] (the same lines) *)
  pr_type : N -> bytes;
  pr_type_debug : N -> bytes;
  (* the texts of [NonStandardSighashTypeError] (src/v2/error.rs:332) and of the others *)
  pr_nonstandard : N -> bytes;
  pr_other : bytes
}.

Section RoleTexts.
Context (P : printers).

(** The errors of the roles of version 2, so that one can be the source of another. *)
Inductive rerr : Type :=
| RKeySources (x : xpub)
| RFunding (e : fundingerr)
| RFee (e : feeerr)
| RIndex (e : ierridx)
| RSign (e : signerr)
| RFlag (e : moderr)
| RModifiable (e : moderr)
| RLockTime (e : dlterr)
| RPartialSigs (e : psigerr)
| RGlobalCombine (e : gcerr)
| RInputCombine (e : icerr)
| ROutputCombine (e : ocerr)
| RCombine (e : comberr)
| RExtract (e : extracterr)
| RExtractTx (e : extracttxerr)
| RExtractFee (e : extractfeeerr)
| RInput (e : inputerr)
| RInputFinalize (e : ifinerr)
| RFinalizeInput (e : fininputerr)
| RFinalize (e : finerr)
| RFinalizer (e : finnewerr)
| RCheckInput (e : checkinputerr)
| RCheck (e : checkerr)
| RGetKey (e : getkeyerr)
(* an error of another crate, with its text *)
| ROther (text : bytes).

(** src/error.rs:81-91 [Display for FundingUtxoError]. *)
Definition funding_text (e : fundingerr) : bytes :=
  match e with
  | FOutOfBounds vout len =>
      str "vout " ++ dec_text vout ++ str " out of bounds for tx list len: " ++ dec_text len
  | FMissingUtxo => str "no funding utxo found"
  end.
(** src/error.rs:37-48 [Display for FeeError]. *)
Definition fee_text (e : feeerr) : bytes :=
  match e with
  | FeeFundingUtxo _ => str "funding utxo error for input"
  | FeeInputOverflow => str "integer overflow in fee calculation adding input"
  | FeeOutputOverflow => str "integer overflow in fee calculation adding output"
  | FeeNegative => str "PSBT has a negative fee which is not allowed"
  end.
(** src/v2/error.rs:77-91 [Display for IndexOutOfBoundsError]. *)
Definition index_text (e : ierridx) : bytes :=
  match e with
  | IdxInputs i n =>
      str "index " ++ dec_text i ++ str " is out-of-bounds for PSBT inputs vector length " ++ dec_text n
  | IdxCount i n => str "index " ++ dec_text i ++ str " is greater global.input_count " ++ dec_text n
  end.
(** src/v2/error.rs:142-168 [Display for SignError]; both errors of
    [p2wpkh_signature_hash] are [P2wpkhSighash]. *)
Definition sign_text (e : signerr) : bytes :=
  match e with
  | SEIndexOutOfBounds _ => str "index out of bounds"
  | SEInvalidSighashType => str "invalid sighash type"
  | SEMissingRedeemScript => str "missing redeem script"
  | SEFundingUtxo _ => str "input funding utxo error"
  | SEMissingWitnessScript => str "missing witness script"
  | SESegwitV0Sighash => str "segwit v0 sighash"
  | SENotP2wpkhScript | SEP2wpkhIndex => str "p2wpkh sighash"
  | SEUnknownOutputType => str "unable to determine the output type"
  | SEWrongSigningAlgorithm => str "attempt to sign an input with the wrong signing algorithm"
  | SEUnsupported => str "signing request currently unsupported"
  end.
(** src/v2/error.rs:256-274 [Display] of the two structs. *)
Definition flag_text (e : moderr) : bytes :=
  match e with
  | InputsNotModifiable => str "PSBT does not have the inputs modifiable flag set"
  | OutputsNotModifiable => str "PSBT does not have the outputs modifiable flag set"
  end.
(** src/v2/error.rs:220-229 [Display for PsbtNotModifiableError]. *)
Definition modifiable_text (e : moderr) : bytes :=
  match e with
  | OutputsNotModifiable => str "outputs not modifiable"
  | InputsNotModifiable => str "inputs not modifiable"
  end.
(** src/v2/error.rs:312-318. *)
Definition lock_time_text : bytes :=
  str "unable to determine lock time, multiple inputs have conflicting locking requirements".
(** src/v2/error.rs:356-371 [Display for PartialSigsSighashTypeError]. *)
Definition partial_sigs_text (e : psigerr) : bytes :=
  match e with
  | PSNonStandardInput n _ => str "non-standard sighash type for input " ++ dec_text n ++ str " in sighash_type field"
  | PSNonStandardPartialSig n _ => str "non-standard sighash type for input " ++ dec_text n ++ str " in partial_sigs"
  | PSWrongFlag n required got k =>
      str "wrong sighash flag for input " ++ dec_text n ++ str " (got: " ++ pr_type P got ++ str ", required: "
      ++ pr_type P required ++ str ") pubkey: " ++ pr_key P k
  end.
(** [{:?}] of [Version] (src/version.rs:12-14, derived). *)
Definition version_debug (n : N) : bytes := str "Version(" ++ dec_text n ++ str ")".
(** src/v2/map/global.rs:751-767 [Display for CombineError]. *)
Definition global_combine_text (e : gcerr) : bytes :=
  match e with
  | GCVersionMismatch this that =>
      str "combine two PSBTs with different versions: " ++ version_debug this ++ str " " ++ version_debug that
  | GCTxVersionMismatch this that =>
      str "combine two PSBTs with different tx versions: " ++ pr_txversion P this ++ str " " ++ pr_txversion P that
  | GCInconsistentKeySources _ => str "combine with inconsistent key sources"
  end.
(** src/v2/map/input.rs:1069-1084 [Display for CombineError]. *)
Definition input_combine_text (e : icerr) : bytes :=
  match e with
  | ICPreviousTxidMismatch this that =>
      str "combine two PSBTs with different previous txids: " ++ pr_txid P this ++ str " " ++ pr_txid P that
  | ICSpentOutputIndexMismatch this that =>
      str "combine two PSBTs with different spent output indecies: " ++ dec_text this ++ str " " ++ dec_text that
  end.
(** src/v2/map/output.rs:463-476 [Display for CombineError]. *)
Definition output_combine_text (e : ocerr) : bytes :=
  match e with
  | OCAmountMismatch this that =>
      str "combine two PSBTs with different amounts: " ++ pr_amount P this ++ str " " ++ pr_amount P that
  | OCScriptPubkeyMismatch this that =>
      str "combine two PSBTs with different script_pubkeys: " ++ hex_text this ++ str " " ++ hex_text that
  end.
(** src/v2/mod.rs:1328-1338 [Display for CombineError]. *)
Definition combine_text (e : comberr) : bytes :=
  match e with
  | CombGlobal _ => str "error while combining the global maps"
  | CombInput _ => str "error while combining the input maps"
  | CombOutput _ => str "error while combining the output maps"
  end.
(** src/v2/extract.rs:137-148 [Display for ExtractError]. *)
Definition extract_text (e : extracterr) : bytes :=
  match e with
  | ExPsbtNotFinalized => str "attempted to extract tx from an unfinalized PSBT"
  | ExDetermineLockTime _ => str "extractor must be able to determine the lock time"
  end.
(** src/v2/extract.rs:182-192 [Display for ExtractTxFeeRateError]. *)
Definition extract_fee_text (e : extractfeeerr) : bytes :=
  match e with
  | EFFee _ => str "fee calculation"
  | EFFeeTooHigh fee max => str "fee " ++ pr_rate P fee ++ str " is greater than max " ++ pr_rate P max
  | EFExtractTx _ => str "extract"
  end.
(** src/v2/miniscript/finalize.rs:598-641 [Display for InputError], the variants that occur. *)
Definition input_text (e : inputerr) : bytes :=
  match e with
  | IEKey => str "Key Err: " ++ pr_other P
  | IEInvalidRedeemScript redeem expected =>
      str "Redeem script " ++ pr_script P redeem ++ str " does not match the p2sh script " ++ pr_script P expected
  | IEInvalidWitnessScript script expected =>
      str "Witness script " ++ pr_script P script ++ str " does not match the p2wsh script " ++ pr_script P expected
  | IEMiniscript => str "Miniscript Error: " ++ pr_other P
  | IEMissingRedeemScript => str "PSBT is Redeem script"
  | IEMissingWitnessScript => str "PSBT is missing witness script"
  | IEMissingPubkey => str "Missing pubkey for a pkh/wpkh"
  | IENonEmptyRedeemScript => str "PSBT has non-empty redeem script at for legacy transactions"
  | IENonEmptyWitnessScript => str "PSBT has non-empty witness script at for legacy input"
  | IECouldNotSatisfyTr => str "Could not satisfy Tr descriptor"
  end.
(** src/v2/map/input.rs:1034-1043 [Display for FinalizeError]. *)
Definition input_finalize_text (e : ifinerr) : bytes :=
  match e with
  | FinEmptyWitness => str "failed to create a final witness"
  | FinUnexpectedWitness => str "unexpected witness data"
  end.
(** src/v2/miniscript/finalize.rs:476-485 [Display for FinalizeInputError]. *)
Definition finalize_input_text (e : fininputerr) : bytes :=
  match e with FIFinal _ => str "final" | FIInput _ => str "input" end.
(** src/v2/miniscript/finalize.rs:439-449 [Display for FinalizeError]. *)
Definition finalize_text (e : finerr) : bytes :=
  match e with
  | FEInput n _ => str "failed to finalize input at index " ++ dec_text n
  | FEInterpreter _ => str "error running the interpreter checks"
  end.
(** src/v2/miniscript/finalize.rs:386-398 [Display for Error]. *)
Definition finalizer_text (e : finnewerr) : bytes :=
  match e with
  | FNFundingUtxo _ => str "Finalizer missing funding UTXO"
  | FNDetermineLockTime _ => str "finalizer must be able to determine the lock time"
  | FNPartialSigs _ => str "Finalizer sighash type error"
  end.
(** src/v2/miniscript/mod.rs:204-215 [Display for InterpreterCheckInputError]. *)
Definition check_input_text (e : checkinputerr) : bytes :=
  match e with
  | CIConstructor n => str "Interpreter constructor failed for input " ++ dec_text n
  | CISatisfaction n => str "Interpreter satisfaction failed for input " ++ dec_text n
  end.
(** src/v2/miniscript/mod.rs:154-163 [Display for InterpreterCheckError]. *)
Definition check_text (e : checkerr) : bytes :=
  match e with
  | CEDetermineLockTime _ => str "interpreter check determine locktime"
  | CEInput _ => str "interpreter check failed for input"
  end.
(** src/v2/mod.rs:1123-1133 and src/v0/bitcoin/mod.rs:863-873 [Display for GetKeyError]. *)
Definition get_key_text (e : getkeyerr) : bytes :=
  match e with
  | GKBip32 => str "a bip23 error"
  | GKNotSupported => str "the GetKey operation is not supported for this key request"
  end.

(** [Display] of all of them; that of [ExtractTxError] is [todo!()] (src/v2/extract.rs:225-227). *)
Definition role_text (e : rerr) : res unit bytes :=
  match e with
  | RKeySources x => Ok (str "combining PSBT, key-source conflict for xpub " ++ pr_xpub P x)
  | RFunding e => Ok (funding_text e)
  | RFee e => Ok (fee_text e)
  | RIndex e => Ok (index_text e)
  | RSign e => Ok (sign_text e)
  | RFlag e => Ok (flag_text e)
  | RModifiable e => Ok (modifiable_text e)
  | RLockTime _ => Ok lock_time_text
  | RPartialSigs e => Ok (partial_sigs_text e)
  | RGlobalCombine e => Ok (global_combine_text e)
  | RInputCombine e => Ok (input_combine_text e)
  | ROutputCombine e => Ok (output_combine_text e)
  | RCombine e => Ok (combine_text e)
  | RExtract e => Ok (extract_text e)
  | RExtractTx _ => Panic
  | RExtractFee e => Ok (extract_fee_text e)
  | RInput e => Ok (input_text e)
  | RInputFinalize e => Ok (input_finalize_text e)
  | RFinalizeInput e => Ok (finalize_input_text e)
  | RFinalize e => Ok (finalize_text e)
  | RFinalizer e => Ok (finalizer_text e)
  | RCheckInput e => Ok (check_input_text e)
  | RCheck e => Ok (check_text e)
  | RGetKey e => Ok (get_key_text e)
  | ROther t => Ok t
  end.

(** [Error::source] of all of them (the implementations after those of [Display]); that of
    [ExtractTxError] is [todo!()] (src/v2/extract.rs:230-232). *)
Definition role_source (e : rerr) : res unit (option rerr) :=
  match e with
  | RFee (FeeFundingUtxo e) => Ok (Some (RFunding e))
  | RSign (SEIndexOutOfBounds e) => Ok (Some (RIndex e))
  | RSign (SEFundingUtxo e) => Ok (Some (RFunding e))
  | RSign SESegwitV0Sighash | RSign SENotP2wpkhScript | RSign SEP2wpkhIndex => Ok (Some (ROther (pr_other P)))
  | RModifiable e => Ok (Some (RFlag e))
  | RPartialSigs (PSNonStandardInput _ ty) => Ok (Some (ROther (pr_nonstandard P ty)))
  | RPartialSigs (PSNonStandardPartialSig _ ty) => Ok (Some (ROther (pr_nonstandard P ty)))
  | RGlobalCombine (GCInconsistentKeySources x) => Ok (Some (RKeySources x))
  | RCombine (CombGlobal e) => Ok (Some (RGlobalCombine e))
  | RCombine (CombInput e) => Ok (Some (RInputCombine e))
  | RCombine (CombOutput e) => Ok (Some (ROutputCombine e))
  | RExtract (ExDetermineLockTime e) => Ok (Some (RLockTime e))
  | RExtractTx _ => Panic
  | RExtractFee (EFFee e) => Ok (Some (RFee e))
  | RExtractFee (EFExtractTx e) => Ok (Some (RExtractTx e))
  | RInput IEKey | RInput IEMiniscript => Ok (Some (ROther (pr_other P)))
  | RFinalizeInput (FIFinal e) => Ok (Some (RInput e))
  | RFinalizeInput (FIInput e) => Ok (Some (RInputFinalize e))
  | RFinalize (FEInput _ e) => Ok (Some (RFinalizeInput e))
  | RFinalize (FEInterpreter e) => Ok (Some (RCheck e))
  | RFinalizer (FNFundingUtxo e) => Ok (Some (RFunding e))
  | RFinalizer (FNDetermineLockTime e) => Ok (Some (RLockTime e))
  | RFinalizer (FNPartialSigs e) => Ok (Some (RPartialSigs e))
  | RCheckInput _ => Ok (Some (ROther (pr_other P)))
  | RCheck (CEDetermineLockTime e) => Ok (Some (RLockTime e))
  | RCheck (CEInput e) => Ok (Some (RCheckInput e))
  | RGetKey GKBip32 => Ok (Some (ROther (pr_other P)))
  | _ => Ok None
  end.

(** ** Version 0 *)

(** src/v0/bitcoin/mod.rs:1124-1141 [Display for IndexOutOfBoundsError]. *)
Definition index0_text (e : idxerr0) : bytes :=
  match e with
  | Idx0Inputs i n =>
      str "index " ++ dec_text i ++ str " is out-of-bounds for PSBT inputs vector length " ++ dec_text n
  | Idx0TxInput i n =>
      str "index " ++ dec_text i ++ str " is out-of-bounds for PSBT unsigned tx input vector length " ++ dec_text n
  end.
(** src/v0/bitcoin/mod.rs:978-1004 [Display for SignError]. *)
Definition sign0_text (e : signerr0) : bytes :=
  match e with
  | S0IndexOutOfBounds _ => str "index out of bounds"
  | S0InvalidSighashType => str "invalid sighash type"
  | S0MissingRedeemScript => str "missing redeem script"
  | S0MissingSpendUtxo => str "missing spend utxo in PSBT"
  | S0MissingWitnessScript => str "missing witness script"
  | S0SegwitV0Sighash => str "segwit v0 sighash"
  | S0NotP2wpkhScript | S0P2wpkhIndex => str "p2wpkh sighash"
  | S0TaprootError => str "taproot sighash"
  | S0UnknownOutputType => str "unable to determine the output type"
  | S0WrongSigningAlgorithm => str "attempt to sign an input with the wrong signing algorithm"
  | S0Unsupported => str "signing request currently unsupported"
  end.
(** src/v0/bitcoin/mod.rs:1006-1031 [Error::source]: the texts that follow. *)
Definition sign0_causes (e : signerr0) : list bytes :=
  match e with
  | S0IndexOutOfBounds e => [index0_text e]
  | S0SegwitV0Sighash | S0NotP2wpkhScript | S0P2wpkhIndex | S0TaprootError => [pr_other P]
  | _ => []
  end.
(** src/v0/bitcoin/mod.rs:1070-1087 [Display for ExtractTxError]; it has no source. *)
Definition extract0_text (e : extract0err) : bytes :=
  match e with
  | X0AbsurdFeeRate r _ => str "An absurdly high fee rate of " ++ pr_rate P r
  | X0MissingInputValue _ =>
      str "One of the inputs lacked value information (witness_utxo or non_witness_utxo)"
  | X0SendingTooMuch _ =>
      str "Transaction would be invalid due to output value being greater than input value."
  end.
(** src/v0/miniscript/mod.rs:177-220 [Display for InputError]. *)
Definition input0_text (e : inputerr0) : bytes :=
  match e with
  | J0Key => str "Key Err: " ++ pr_other P
  | J0Interpreter | J0NonStandardSighash => str "Interpreter: " ++ pr_other P
  | J0InvalidRedeemScript redeem expected =>
      str "Redeem script " ++ pr_script P redeem ++ str " does not match the p2sh script " ++ pr_script P expected
  | J0InvalidWitnessScript script expected =>
      str "Witness script " ++ pr_script P script ++ str " does not match the p2wsh script " ++ pr_script P expected
  | J0Miniscript => str "Miniscript Error: " ++ pr_other P
  | J0MissingWitness => str "PSBT is missing witness"
  | J0MissingRedeemScript => str "PSBT is Redeem script"
  | J0MissingUtxo => str "PSBT is missing both witness and non-witness UTXO"
  | J0MissingWitnessScript => str "PSBT is missing witness script"
  | J0MissingPubkey => str "Missing pubkey for a pkh/wpkh"
  | J0NonEmptyRedeemScript => str "PSBT has non-empty redeem script at for legacy transactions"
  | J0NonEmptyWitnessScript => str "PSBT has non-empty witness script at for legacy input"
  | J0WrongSighashFlag required got k =>
      str "PSBT: signature with key " ++ pr_key_debug P k ++ str " had sighashflag " ++ pr_type_debug P got
      ++ str " rather than required " ++ pr_type_debug P required
  | J0CouldNotSatisfyTr => str "Could not satisfy Tr descriptor"
  | J0NonStandardSighashType => str "Non-standard sighash type " ++ pr_other P
  end.
(** src/v0/miniscript/mod.rs:58-72 [Display for Error].  Lines 75-84 implement [cause] and not
    [source]; the text has that of the cause in it. *)
Definition finalize0_text (e : msferr0) : bytes :=
  match e with
  | M0Input e n => input0_text e ++ str " at index " ++ dec_text n
  | M0WrongInputCount in_tx in_map =>
      str "PSBT had " ++ dec_text in_tx ++ str " inputs in transaction but " ++ dec_text in_map ++ str " inputs in map"
  | M0InputIdxOutofBounds psbt_inp index =>
      str "psbt input index " ++ dec_text index ++ str " out of bounds: psbt.inputs.len() " ++ dec_text psbt_inp
  end.
(** src/v0/miniscript/mod.rs:1232-1252 [Display for UtxoUpdateError]. *)
Definition utxo_update_text (e : utxoupderr) : bytes :=
  match e with
  | UUIndexOutOfBounds i n => str "index " ++ dec_text i ++ str ", psbt input len: " ++ dec_text n
  | UUMissingInputUtxo => str "Missing input in unsigned transaction"
  | UUDerivation _ => str "Key derivation error " ++ pr_other P
  | UUUtxoCheck => str "The input's witness_utxo and/or non_witness_utxo were invalid or missing"
  | UUMismatchedScriptPubkey =>
      str "The input's witness_utxo and/or non_witness_utxo had a script pubkey that didn't match the descriptor"
  end.
(** src/v0/miniscript/mod.rs:1278-1293 [Display for OutputUpdateError]. *)
Definition output_update_text (e : outupderr) : bytes :=
  match e with
  | OUIndexOutOfBounds i n => str "index " ++ dec_text i ++ str ", psbt output len: " ++ dec_text n
  | OUMissingTxOut => str "Missing txout in the unsigned transaction"
  | OUDerivation _ => str "Key derivation error " ++ pr_other P
  | OUMismatchedScriptPubkey => str "The output's script pubkey didn't match the descriptor"
  end.
(** src/v0/miniscript/mod.rs:1330-1346 [Display for SighashError]. *)
Definition sighash_msg_text (e : sighashmsgerr) : bytes :=
  match e with
  | HMIndexOutOfBounds i n => str "index " ++ dec_text i ++ str ", psbt input len: " ++ dec_text n
  | HMMissingInputUtxo => str "Missing input utxo in pbst"
  | HMMissingSpendUtxos => str "Missing Psbt spend utxos"
  | HMInvalidSighashType => str "Invalid Sighash type"
  | HMMissingWitnessScript => str "Missing Witness Script"
  | HMMissingRedeemScript => str "Missing Redeem Script"
  | HMTaproot => str "sighash taproot: " ++ pr_other P
  | HMP2wpkh => str "sighash p2wpkh: " ++ pr_other P
  | HMInputsIndex => str "tx inputs index: " ++ pr_other P
  end.

End RoleTexts.
