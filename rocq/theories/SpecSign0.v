(** Specification of signing a v0 PSBT (BIP-143, BIP-174, BIP-341, BIP-371) and of the checks
    of a signer (BIP-174), independent of the code's helpers. *)
From Verif Require Import Base OMap Consensus Ext SpecCodec Serialize V2Sign SpecSign V0Input V0Psbt SpecExtract0 V0Sign.
Local Open Scope N_scope.

(** The input with index [n] of the transaction, with its map. *)
Definition spend_at (p : psbt0) (n : N) (s : txin * input0) : Prop := nth_error (spends p) (N.to_nat n) = Some s.
(** What the input spends: an output of the given kind. *)
Definition spends_kind (s : txin * input0) (o : outtype) : Prop :=
  exists u, funds0 s u /\ output_kind (to_script u) (i0_redeem_script (snd s)) o.
Definition spends_ecdsa (s : txin * input0) : Prop := exists o, spends_kind s o /\ o <> Tr.
Definition spends_taproot (s : txin * input0) : Prop := exists u k, funds0 s u /\ p2tr_key (to_script u) k.
(** No input refers to an output that the transaction given for it does not have. *)
Definition vouts_in_bounds (p : psbt0) : Prop := Forall (fun s => ~ vout_out_of_bounds s) (spends p).

(** The sighash type of an input: ALL unless it names another, DEFAULT for taproot. *)
Definition type_of_input0 (i : input0) (ty : N) : Prop :=
  In ty [0x01; 0x02; 0x03; 0x81; 0x82; 0x83] /\
  (i0_sighash_type i = Some ty \/ i0_sighash_type i = None /\ ty = 0x01).
Definition taproot_type_of_input (i : input0) (ty : N) : Prop :=
  In ty [0x00; 0x01; 0x02; 0x03; 0x81; 0x82; 0x83] /\
  (i0_sighash_type i = Some ty \/ i0_sighash_type i = None /\ ty = 0x00).

Section Sign.
Context `{X : Ext} `{S : SignExt} `{T : SchnorrExt}.

(** ** What is signed *)

(** The ECDSA message for input [n] of the transaction [t] with redeem script [r] and witness
    script [w], spending output [u]. *)
Inductive message0 (t : tx) (n : N) (r w : option bytes) (u : txout) (ty : N) : bytes -> Prop :=
| M0Bare : output_kind (to_script u) r Bare -> message0 t n r w u ty (legacy_digest t n (to_script u) ty)
| M0Sh c : output_kind (to_script u) r Sh -> r = Some c -> message0 t n r w u ty (legacy_digest t n c ty)
| M0Wpkh h : p2wpkh_hash (to_script u) h ->
    message0 t n r w u ty (segwit_digest t n (p2pkh_script h) (to_value u) ty)
| M0ShWpkh c h : p2sh (to_script u) -> r = Some c -> p2wpkh_hash c h ->
    message0 t n r w u ty (segwit_digest t n (p2pkh_script h) (to_value u) ty)
| M0Wsh h c : p2wsh_hash (to_script u) h -> w = Some c ->
    message0 t n r w u ty (segwit_digest t n c (to_value u) ty)
| M0ShWsh q h c : p2sh (to_script u) -> r = Some q -> p2wsh_hash q h -> w = Some c ->
    message0 t n r w u ty (segwit_digest t n c (to_value u) ty).
Definition to_sign0 (p : psbt0) (t : tx) (n : N) (m : bytes) (ty : N) : Prop :=
  exists s u, spend_at p n s /\ funds0 s u /\ type_of_input0 (snd s) ty
    /\ message0 t n (i0_redeem_script (snd s)) (i0_witness_script (snd s)) u ty m.

(** The taproot message of an input, for the key path or for a leaf: with ANYONECANPAY it
    commits to the output that is spent, else to all outputs that the transaction spends; for
    SINGLE there must be an output with the index of the input. *)
Definition taproot_to_sign (p : psbt0) (n : N) (leaf : option bytes) (m : bytes) (ty : N) : Prop :=
  exists s u,
    spend_at p n s /\ funds0 s u /\ (exists k, p2tr_key (to_script u) k) /\ taproot_type_of_input (snd s) ty
    /\ (In ty [0x03; 0x83] -> n < blen (tx_output (p0_unsigned_tx p)))
    /\ (In ty [0x81; 0x82; 0x83] /\ m = taproot_digest (p0_unsigned_tx p) n (PrevoutsOne n u) leaf ty
        \/ In ty [0x00; 0x01; 0x02; 0x03] /\ one_map_per_input p
           /\ exists us, Forall2 funds0 (spends p) us /\ m = taproot_digest (p0_unsigned_tx p) n (PrevoutsAll us) leaf ty).

(** ** Which signatures are made *)

(** The signatures after signing: those of the keys, and the old ones under other keys. *)
Definition sigs_after (sks : list privkey) (m : bytes) (ty : N) (old new : list (pubkey * esig)) : Prop :=
  forall pk s, m_get sk_pubkey pk new = Some s <->
    signature_by sks m ty pk s \/ ~ In pk (map public_of sks) /\ m_get sk_pubkey pk old = Some s.

(** The signatures that are made for a taproot input: for the internal key, when it is listed
    without leaves, the signer has the key and there is no signature yet ([None]); and for the
    leaves of a listed key that the signer has, when there is no signature yet. *)
Inductive wanted (k : provider) (i : input0) : option bytes -> bytes -> privkey -> Prop :=
| WantKey x src sk : In (x, ([], src)) (i0_tap_key_origins i) -> i0_tap_internal_key i = Some x ->
    i0_tap_key_sig i = None -> k (KRBip32 src) = inr (Some sk) -> wanted k i None x sk
| WantLeaf x lhs src sk lh : In (x, (lhs, src)) (i0_tap_key_origins i) -> In lh lhs ->
    m_get sk_xleaf (x, lh) (i0_tap_script_sigs i) = None -> k (KRBip32 src) = inr (Some sk) ->
    wanted k i (Some lh) x sk.
Definition x_public (sk : privkey) : bytes := xonly_of (secret_pubkey (pv_secret sk)).
(** The keys that are reported, by the origins: the internal key for the key path, the public
    key of the signer's key for leaves. *)
Inductive taproot_keys (k : provider) (i : input0) : list (bytes * taporigin) -> list bytes -> Prop :=
| TKNil : taproot_keys k i [] []
| TKKey x o l r sk : wanted k i None x sk -> taproot_keys k i l r -> taproot_keys k i ((x, o) :: l) (x :: r)
| TKLeaves x o l r lh sk : wanted k i (Some lh) x sk -> taproot_keys k i l r ->
    taproot_keys k i ((x, o) :: l) (x_public sk :: r)
| TKNone x o l r : (forall leaf sk, ~ wanted k i leaf x sk) -> taproot_keys k i l r ->
    taproot_keys k i ((x, o) :: l) r.

(** The taproot signatures after signing. *)
Record taproot_signed (k : provider) (p : psbt0) (n : N) (i i' : input0) : Prop := {
  ts_rest : i' = set_i0_tap_script_sigs (i0_tap_script_sigs i') (set_i0_tap_key_sig (i0_tap_key_sig i') i);
  ts_key : forall g, i0_tap_key_sig i' = Some g <->
    i0_tap_key_sig i = Some g
    \/ exists x sk m ty, wanted k i None x sk /\ taproot_to_sign p n None m ty
         /\ g = TSig (sign_schnorr m (tweak_secret (pv_secret sk) (i0_tap_merkle_root i))) ty;
  ts_leaf : forall x lh g, m_get sk_xleaf (x, lh) (i0_tap_script_sigs i') = Some g <->
    m_get sk_xleaf (x, lh) (i0_tap_script_sigs i) = Some g
    \/ exists sk m ty, wanted k i (Some lh) x sk /\ taproot_to_sign p n (Some lh) m ty
         /\ g = TSig (sign_schnorr m (pv_secret sk)) ty
}.

(** What signing makes of an input, and the keys it reports; [None] for an error. *)
Inductive signed0 (k : provider) (p : psbt0) (n : N) (s : txin * input0) : input0 -> option signkeys -> Prop :=
| S0Ecdsa sks m ty new :
    spends_ecdsa s -> keys_for k (i0_bip32_derivation (snd s)) sks -> to_sign0 p (p0_unsigned_tx p) n m ty ->
    sigs_after sks m ty (i0_partial_sigs (snd s)) new ->
    signed0 k p n s (set_i0_partial_sigs new (snd s)) (Some (KeysEcdsa (map public_of sks)))
| S0EcdsaNoKey :
    spends_ecdsa s -> keys_for k (i0_bip32_derivation (snd s)) [] -> signed0 k p n s (snd s) (Some (KeysEcdsa []))
| S0EcdsaError sks :
    spends_ecdsa s -> keys_for k (i0_bip32_derivation (snd s)) sks -> sks <> [] ->
    (forall m ty, ~ to_sign0 p (p0_unsigned_tx p) n m ty) -> signed0 k p n s (snd s) None
| S0Taproot i' xs :
    spends_taproot s ->
    (forall leaf x sk, wanted k (snd s) leaf x sk -> exists m ty, taproot_to_sign p n leaf m ty) ->
    taproot_signed k p n (snd s) i' -> taproot_keys k (snd s) (i0_tap_key_origins (snd s)) xs ->
    signed0 k p n s i' (Some (KeysSchnorr xs))
| S0TaprootErr leaf x sk :
    spends_taproot s -> wanted k (snd s) leaf x sk -> (forall m ty, ~ taproot_to_sign p n leaf m ty) ->
    signed0 k p n s (snd s) None
| S0Other : ~ spends_ecdsa s -> ~ spends_taproot s -> signed0 k p n s (snd s) None.

(** The errors: for what is signed with ECDSA, for taproot, and in general.  Nothing is said
    when the signer has no key to sign with. *)
Inductive ecdsa_error (s : txin * input0) : signerr0 -> Prop :=
| EEType : (forall ty, ~ type_of_input0 (snd s) ty) -> ecdsa_error s S0InvalidSighashType
| EERedeem ty : type_of_input0 (snd s) ty -> spends_kind s Sh -> i0_redeem_script (snd s) = None ->
    ecdsa_error s S0MissingRedeemScript
| EEWitness ty : type_of_input0 (snd s) ty -> spends_kind s Wsh \/ spends_kind s ShWsh ->
    i0_witness_script (snd s) = None -> ecdsa_error s S0MissingWitnessScript.
Inductive taproot_error (p : psbt0) (n : N) (s : txin * input0) : signerr0 -> Prop :=
| TEType : (forall ty, ~ taproot_type_of_input (snd s) ty) -> taproot_error p n s S0InvalidSighashType
| TEUtxo ty s' : taproot_type_of_input (snd s) ty -> In ty [0x00; 0x01; 0x02; 0x03] -> In s' (spends p) -> no_utxo s' ->
    taproot_error p n s S0MissingSpendUtxo
| TESingle ty : taproot_type_of_input (snd s) ty -> In ty [0x03; 0x83] -> blen (tx_output (p0_unsigned_tx p)) <= n ->
    (In ty [0x00; 0x01; 0x02; 0x03] -> forall s', In s' (spends p) -> ~ no_utxo s') ->
    taproot_error p n s S0TaprootError.
Inductive sign_error0 (k : provider) (p : psbt0) (n : N) (s : txin * input0) : signerr0 -> Prop :=
| E0Utxo : no_utxo s -> sign_error0 k p n s S0MissingSpendUtxo
| E0Kind u : funds0 s u -> (forall o, ~ spends_kind s o) -> sign_error0 k p n s S0UnknownOutputType
| E0Ecdsa sks e : spends_ecdsa s -> keys_for k (i0_bip32_derivation (snd s)) sks -> sks <> [] -> ecdsa_error s e ->
    sign_error0 k p n s e
| E0Taproot leaf x sk e : spends_taproot s -> wanted k (snd s) leaf x sk -> taproot_error p n s e ->
    sign_error0 k p n s e.

(** The inputs, respectively the PSBTs, differ in signatures only. *)
Definition same_but_sigs0 (i i' : input0) : Prop :=
  i' = set_i0_tap_script_sigs (i0_tap_script_sigs i')
         (set_i0_tap_key_sig (i0_tap_key_sig i') (set_i0_partial_sigs (i0_partial_sigs i') i)).
Record same_but_signed0 (p p' : psbt0) : Prop := {
  sb0_rest : p' = set_p0_inputs (p0_inputs p') p;
  sb0_inputs : Forall2 same_but_sigs0 (p0_inputs p) (p0_inputs p')
}.

(** ** What a signer has to check (BIP-174) *)

(** The txid of the transaction given for the output that is spent. *)
Definition txid_matches (s : txin * input0) : Prop :=
  forall t, i0_non_witness_utxo (snd s) = Some t -> sha256d (enc_tx_nowit t) = ti_txid (fst s).
(** The scripts belong to the script of the output that is spent. *)
Definition redeem_matches (s : txin * input0) : Prop :=
  forall r, i0_redeem_script (snd s) = Some r -> exists u, funds0 s u /\ to_script u = p2sh_script (hash160 r).
Definition witness_matches (s : txin * input0) : Prop :=
  forall w, i0_witness_script (snd s) = Some w ->
    exists u, funds0 s u /\ (to_script u = program_script 0 (sha256 w)
                             \/ i0_redeem_script (snd s) = Some (program_script 0 (sha256 w))).
(** With a witness utxo no signature without witness is made. *)
Definition witness_only (s : txin * input0) : Prop :=
  i0_witness_utxo (snd s) <> None -> ~ spends_kind s Bare /\ ~ spends_kind s Sh.
Record consistent (s : txin * input0) : Prop := {
  cs_txid : txid_matches s;
  cs_redeem : redeem_matches s;
  cs_witness : witness_matches s;
  cs_only : witness_only s
}.

(** What the code checks instead. *)
Record checked (s : txin * input0) : Prop := {
  ck_only : i0_witness_utxo (snd s) <> None -> ~ spends_kind s Bare;
  ck_txid : txid_matches s;
  ck_redeem : forall r, i0_redeem_script (snd s) = Some r ->
    exists u, i0_witness_utxo (snd s) = Some u /\ to_script u = p2sh_script (hash160 r);
  ck_witness : forall w, i0_witness_script (snd s) = Some w ->
    exists u, i0_witness_utxo (snd s) = Some u /\ (forall h, p2wsh_hash (to_script u) h -> h = sha256 w)
              /\ (p2sh (to_script u) -> i0_redeem_script (snd s) = None)
}.
(** The error for an input that does not pass: the first check that fails. *)
Inductive check_error (s : txin * input0) : checkserr -> Prop :=
| CEBare : i0_witness_utxo (snd s) <> None -> spends_kind s Bare -> check_error s SCNonWitnessSig
| CETxid t : (i0_witness_utxo (snd s) <> None -> ~ spends_kind s Bare) ->
    i0_non_witness_utxo (snd s) = Some t -> sha256d (enc_tx_nowit t) <> ti_txid (fst s) ->
    check_error s SCNonWitnessUtxoTxidMismatch
| CENoTxOut : i0_witness_utxo (snd s) = None -> txid_matches s ->
    i0_redeem_script (snd s) <> None \/ i0_witness_script (snd s) <> None -> check_error s SCMissingTxOut
| CERedeem u r : ~ spends_kind s Bare -> txid_matches s -> i0_witness_utxo (snd s) = Some u ->
    i0_redeem_script (snd s) = Some r -> to_script u <> p2sh_script (hash160 r) -> check_error s SCRedeemScriptMismatch
| CEWsh u h w : txid_matches s -> i0_witness_utxo (snd s) = Some u -> p2wsh_hash (to_script u) h ->
    i0_redeem_script (snd s) = None -> i0_witness_script (snd s) = Some w -> h <> sha256 w ->
    check_error s SCWitnessScriptMismatchWsh
| CEShWsh u r w : txid_matches s -> i0_witness_utxo (snd s) = Some u -> i0_redeem_script (snd s) = Some r ->
    to_script u = p2sh_script (hash160 r) -> i0_witness_script (snd s) = Some w ->
    check_error s SCWitnessScriptMismatchShWsh.

End Sign.
