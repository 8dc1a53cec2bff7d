(** Specification of the reasons why an input cannot be finalized (BIP-16, BIP-141, BIP-174, BIP-341),
    independent of the code's helpers. *)
From Verif Require Import Base OMap Consensus Ext Raw TapTree Serialize V2Global V2Input V2Output V2Psbt V2Roles SpecRoles V2Sign SpecSign V2Finalize SpecFinalize
  SpecCodec SpecPsbt V0Error V0Input V0Output V0Psbt SpecExtract0 SpecSign0 V0Finalize SpecFinalize0.
Local Open Scope N_scope.

(** Pay to public key, pay to public key hash. *)
Definition p2pk_key (s k : bytes) : Prop := (length k = 33%nat \/ length k = 65%nat) /\ s = n2b (blen k) :: k ++ [xac].
Definition p2pkh_hash (s h : bytes) : Prop := length h = 20%nat /\ s = p2pkh_script h.
Definition p2sh_hash (s h : bytes) : Prop := length h = 20%nat /\ s = p2sh_script h.
(** Any other output. *)
Definition bare_output (s : bytes) : Prop :=
  (forall k, ~ p2pk_key s k) /\ (forall h, ~ p2pkh_hash s h) /\ (forall h, ~ p2sh_hash s h)
  /\ (forall h, ~ p2wpkh_hash s h) /\ (forall h, ~ p2wsh_hash s h) /\ (forall k, ~ p2tr_key s k).

(** What is known about the output that an input spends. *)
Record spending := Spending {
  (* its script *)
  sp_output : bytes;
  (* redeem and witness script given for it *)
  sp_redeem : option bytes;
  sp_script : option bytes;
  (* the keys there are ECDSA signatures of *)
  sp_signed : pubkey -> Prop;
  (* scripts that can be satisfied *)
  sp_runs : msctx -> bytes -> Prop;
  (* there is a signature for the key path, or a leaf can be satisfied *)
  sp_taproot : Prop
}.

(** What can be wrong. *)
Inductive problem : Type :=
| BadKey                                          (* the output pays to something that is no public key *)
| NoSigningKey                                    (* no signature by the key that is paid *)
| NoRedeemScript | WrongRedeemScript (got expected : bytes) | ExtraRedeemScript
| NoWitnessScript | WrongWitnessScript (got expected : bytes) | ExtraWitnessScript
| NotSatisfied                                    (* the script cannot be satisfied *)
| NoTaprootPath.

Section Problems.
Context `{X : Ext}.

(** A witness program that commits to a key or to a script. *)
Definition unsigned_hash (s : spending) (h : bytes) : Prop :=
  forall k, sp_signed s k -> pub_compressed k = true -> hash160 (ser_pubkey k) <> h.
Inductive script_problem (s : spending) (prog h : bytes) : problem -> Prop :=
| SPNone : sp_script s = None -> script_problem s prog h NoWitnessScript
| SPWrong w : sp_script s = Some w -> sha256 w <> h -> script_problem s prog h (WrongWitnessScript w prog)
| SPRuns w : sp_script s = Some w -> sha256 w = h -> ~ sp_runs s CSegwitv0 w -> script_problem s prog h NotSatisfied.

Inductive cannot (s : spending) : problem -> Prop :=
(* pay to public key *)
| CNKey k : p2pk_key (sp_output s) k -> (forall pk, wf_pubkey pk -> ser_pubkey pk <> k) -> cannot s BadKey
| CNPk pk : wf_pubkey pk -> p2pk_key (sp_output s) (ser_pubkey pk) -> ~ sp_signed s pk -> cannot s NotSatisfied
(* pay to public key hash *)
| CNPkh h : p2pkh_hash (sp_output s) h -> (forall k, sp_signed s k -> hash160 (ser_pubkey k) <> h) -> cannot s NoSigningKey
(* pay to witness public key hash *)
| CNWpkh h : p2wpkh_hash (sp_output s) h -> unsigned_hash s h -> cannot s NoSigningKey
(* pay to witness script hash *)
| CNWshRedeem h : p2wsh_hash (sp_output s) h -> sp_redeem s <> None -> cannot s ExtraRedeemScript
| CNWsh h q : p2wsh_hash (sp_output s) h -> sp_redeem s = None -> script_problem s (sp_output s) h q -> cannot s q
(* pay to script hash *)
| CNShNone h : p2sh_hash (sp_output s) h -> sp_redeem s = None -> cannot s NoRedeemScript
| CNShWrong h r : p2sh_hash (sp_output s) h -> sp_redeem s = Some r -> hash160 r <> h -> cannot s (WrongRedeemScript r (sp_output s))
| CNShWsh h r g q : p2sh_hash (sp_output s) h -> sp_redeem s = Some r -> hash160 r = h -> p2wsh_hash r g ->
    script_problem s r g q -> cannot s q
| CNShWpkh h r g : p2sh_hash (sp_output s) h -> sp_redeem s = Some r -> hash160 r = h -> p2wpkh_hash r g ->
    unsigned_hash s g -> cannot s NoSigningKey
| CNShScript h r : p2sh_hash (sp_output s) h -> sp_redeem s = Some r -> hash160 r = h ->
    (forall g, ~ p2wsh_hash r g) -> (forall g, ~ p2wpkh_hash r g) -> sp_script s <> None -> cannot s ExtraWitnessScript
| CNSh h r : p2sh_hash (sp_output s) h -> sp_redeem s = Some r -> hash160 r = h ->
    (forall g, ~ p2wsh_hash r g) -> (forall g, ~ p2wpkh_hash r g) -> sp_script s = None -> ~ sp_runs s CLegacy r -> cannot s NotSatisfied
(* pay to taproot *)
| CNTr k : p2tr_key (sp_output s) k -> ~ sp_taproot s -> cannot s NoTaprootPath
(* everything else *)
| CNBareScript : bare_output (sp_output s) -> sp_script s <> None -> cannot s ExtraWitnessScript
| CNBareRedeem : bare_output (sp_output s) -> sp_script s = None -> sp_redeem s <> None -> cannot s ExtraRedeemScript
| CNBare : bare_output (sp_output s) -> sp_script s = None -> sp_redeem s = None -> ~ sp_runs s CBare (sp_output s) -> cannot s NotSatisfied.

(** The output is spent with a witness: BIP-141, BIP-341. *)
Definition witness_output (s : spending) : Prop :=
  (exists h, p2wpkh_hash (sp_output s) h \/ p2wsh_hash (sp_output s) h \/ p2tr_key (sp_output s) h)
  \/ p2sh (sp_output s) /\ exists r h, sp_redeem s = Some r /\ (p2wpkh_hash r h \/ p2wsh_hash r h).

Context `{M : MsExt}.

(** A script parses as a miniscript that may be used and that the satisfier satisfies; raw hashes of
    keys are replaced by known keys, except in redeem scripts. *)
Definition runs_with (names : list (bytes * pubkey)) (sat : msctx -> ms -> satisfier -> option (list bytes)) (z : satisfier)
    (c : msctx) (b : bytes) : Prop :=
  exists m w, ms_parse c b = Some m /\
    let m' := match c with CLegacy => m | _ => ms_substitute names m end in
    ms_top_level c m' = true /\ sat c m' z = Some w.

(** The spending of an input of a v2 PSBT. *)
Definition spending_of (inputs : list input) (i : input) (u : txout) : spending := {|
  sp_output := to_script u;
  sp_redeem := in_redeem_script i;
  sp_script := in_witness_script i;
  sp_signed := fun k => exists s, In (k, s) (in_partial_sigs i);
  sp_runs := runs_with (known_keys inputs) ms_satisfy (input_satisfier i);
  sp_taproot := in_tap_key_sig i <> None \/ exists w, leaf_spend i w
|}.

Context `{NM : !MsNmExt M}.

(** The witnesses for the leaves of an input, with the keys of the origins of all inputs. *)
Definition leaf_found0 (mall : bool) (p : psbt0) (s : txin * input0) : Prop :=
  exists cb script m st,
    In (cb, (script, 192)) (i0_tap_scripts (snd s)) /\ ms_parse CTap script = Some m /\
    (if mall then ms_satisfy else ms_satisfy_nm) CTap (ms_substitute_tap (tap_key_map0 (p0_inputs p)) m)
      (psbt_input_satisfier (p0_unsigned_tx p) (fst s) (snd s)) = Some st.
(** The spending of an input of a v0 PSBT. *)
Definition spending_of0 (mall : bool) (p : psbt0) (s : txin * input0) (u : txout) : spending := {|
  sp_output := to_script u;
  sp_redeem := i0_redeem_script (snd s);
  sp_script := i0_witness_script (snd s);
  sp_signed := fun k => exists sg, In (k, sg) (i0_partial_sigs (snd s));
  sp_runs := runs_with (known_keys0 (p0_inputs p)) (if mall then ms_satisfy else ms_satisfy_nm)
               (psbt_input_satisfier (p0_unsigned_tx p) (fst s) (snd s));
  sp_taproot := i0_tap_key_sig (snd s) <> None \/ leaf_found0 mall p s
|}.

End Problems.

(** The errors that name the problems. *)
Definition error_of (q : problem) : inputerr :=
  match q with
  | BadKey => IEKey
  | NoSigningKey => IEMissingPubkey
  | NoRedeemScript => IEMissingRedeemScript
  | WrongRedeemScript r e => IEInvalidRedeemScript r e
  | ExtraRedeemScript => IENonEmptyRedeemScript
  | NoWitnessScript => IEMissingWitnessScript
  | WrongWitnessScript w e => IEInvalidWitnessScript w e
  | ExtraWitnessScript => IENonEmptyWitnessScript
  | NotSatisfied => IEMiniscript
  | NoTaprootPath => IECouldNotSatisfyTr
  end.
Definition error_of0 (q : problem) : inputerr0 :=
  match q with
  | BadKey => J0Key
  | NoSigningKey => J0MissingPubkey
  | NoRedeemScript => J0MissingRedeemScript
  | WrongRedeemScript r e => J0InvalidRedeemScript r e
  | ExtraRedeemScript => J0NonEmptyRedeemScript
  | NoWitnessScript => J0MissingWitnessScript
  | WrongWitnessScript w e => J0InvalidWitnessScript w e
  | ExtraWitnessScript => J0NonEmptyWitnessScript
  | NotSatisfied => J0Miniscript
  | NoTaprootPath => J0CouldNotSatisfyTr
  end.

Section Why.
Context `{X : Ext} `{M : MsExt}.

(** Why an input of a v2 PSBT cannot be finalized: it has a problem; or there is nothing wrong, but
    the output has no witness although it is given as an output that has one. *)
Inductive why (p : psbt) (i : input) : fininputerr -> Prop :=
| WProblem u q : funds i u -> cannot (spending_of (p_inputs p) i u) q -> why p i (FIFinal (error_of q))
| WLegacy u : funds i u -> (forall q, ~ cannot (spending_of (p_inputs p) i u) q) -> in_witness_utxo i <> None ->
    ~ witness_output (spending_of (p_inputs p) i u) -> why p i (FIInput FinEmptyWitness).

Context `{NM : !MsNmExt M}.

(** Why an input of a v0 PSBT cannot be finalized: nothing is known of its output; it has a problem;
    nothing is known of another output that is spent; or what is found does not spend the output. *)
Definition no_problem0 (mall : bool) (p : psbt0) (n : N) : Prop :=
  exists s u, spend_at p n s /\ funds0 s u /\ forall q, ~ cannot (spending_of0 mall p s u) q.
Inductive why0 (mall : bool) (p : psbt0) (n : N) : msferr0 -> Prop :=
| W0Utxo s : spend_at p n s -> no_utxo s -> why0 mall p n (M0Input J0MissingUtxo n)
| W0Problem s u q : spend_at p n s -> funds0 s u -> cannot (spending_of0 mall p s u) q -> why0 mall p n (M0Input (error_of0 q) n)
| W0Other k : no_problem0 mall p n -> first_unknown p k -> why0 mall p n (M0Input J0MissingUtxo k)
| W0Interpreter w ss v : no_problem0 mall p n -> built mall p n w ss -> verdict0 p n w ss v -> v <> IOk ->
    why0 mall p n (M0Input J0Interpreter n).

End Why.
