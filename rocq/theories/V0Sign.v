(** Model of the signer of src/v0/bitcoin/mod.rs (298-703) and of the checks of
    src/v0/mod.rs (57-118).  Digests and signatures are external: the ECDSA functions enter
    through [SignExt] (V2Sign.v), the Schnorr functions through [SchnorrExt].  The key providers
    (src/v0/bitcoin/mod.rs:756-847) are those of V2Sign.v. *)
From Verif Require Import Base OMap Consensus Ext Raw TapTree Serialize MapCodec V2Global V2Input V2Psbt V2Roles
  Script SighashType V2Sign V0Error V0Input V0Output V0Psbt.
Local Open Scope N_scope.

(** [sighash::Prevouts] (src/v0/bitcoin/mod.rs:590-600). *)
Inductive prevouts : Type :=
| PrevoutsOne (index : N) (u : txout)
| PrevoutsAll (l : list txout).

Class SchnorrExt := {
  (** The message hashed by [SighashCache::taproot_key_spend_signature_hash] (no leaf hash) and
      [taproot_script_spend_signature_hash] (src/v0/bitcoin/mod.rs:602-611), for arguments that
      are accepted: transaction, input index, outputs spent, leaf hash, sighash type. *)
  taproot_digest : tx -> N -> prevouts -> option bytes -> N -> bytes;
  (** [Keypair::tap_tweak] (src/v0/bitcoin/mod.rs:447): secret key, merkle root. *)
  tweak_secret : bytes -> option bytes -> bytes;
  (** [Secp256k1::sign_schnorr_no_aux_rand] (src/v0/bitcoin/mod.rs:453, 480): message, secret
      key.  With the feature "rand" another signature of the same message is made. *)
  sign_schnorr : bytes -> bytes -> bytes;
  (** [Secp256k1::verify_schnorr]: x-only key, message, signature.  Not called by the signer,
      used to state what a signature is. *)
  verify_schnorr : bytes -> bytes -> bytes -> bool;
  (** [UntweakedPublicKey::tap_tweak]: the output key of an internal key and a merkle root
      (BIP-341).  Not called by the signer. *)
  output_key : bytes -> option bytes -> bytes
}.

(** [XOnlyPublicKey::from(PublicKey)] (src/v0/bitcoin/mod.rs:486): the parity byte is dropped. *)
Definition xonly_of (pk : bytes) : bytes := tl pk.

(** Facts about these functions that hold for the real ones. *)
Class SchnorrLaws (S : SignExt) (T : SchnorrExt) : Prop := {
  sign_schnorr_len : forall m k, length (sign_schnorr m k) = 64%nat;
  sign_schnorr_verifies : forall m k, verify_schnorr (xonly_of (secret_pubkey k)) m (sign_schnorr m k) = true;
  (** The tweaked secret key belongs to the output key. *)
  tweak_secret_key : forall k r, xonly_of (secret_pubkey (tweak_secret k r)) = output_key (xonly_of (secret_pubkey k)) r
}.

(** src/v0/bitcoin/mod.rs:1103-1118 [IndexOutOfBoundsError]. *)
Inductive idxerr0 : Type :=
| Idx0Inputs (index len : N)
| Idx0TxInput (index len : N).
(** src/v0/bitcoin/mod.rs:939-972 [SignError], the variants that occur. *)
Inductive signerr0 : Type :=
| S0IndexOutOfBounds (e : idxerr0)
| S0InvalidSighashType
| S0MissingRedeemScript
| S0MissingSpendUtxo
| S0MissingWitnessScript
| S0SegwitV0Sighash
| S0NotP2wpkhScript
| S0P2wpkhIndex
| S0TaprootError
| S0UnknownOutputType
| S0WrongSigningAlgorithm
| S0Unsupported.
(** src/v0/bitcoin/mod.rs:784-792 [SigningKeys]. *)
Inductive signkeys : Type :=
| KeysEcdsa (l : list pubkey)
| KeysSchnorr (l : list bytes).
(** src/v0/mod.rs:124-139 [SignerChecksError], the variants that occur. *)
Inductive checkserr : Type :=
| SCNonWitnessSig
| SCNonWitnessUtxoTxidMismatch
| SCRedeemScriptMismatch
| SCMissingTxOut
| SCWitnessScriptMismatchWsh
| SCWitnessScriptMismatchShWsh.

(** src/v0/bitcoin/mod.rs:640-659 [Psbt::check_index_is_within_bounds]. *)
Definition check_index0 (p : psbt0) (index : N) : res idxerr0 unit :=
  _ <- fail_if (blen (p0_inputs p) <=? index) (Idx0Inputs index (blen (p0_inputs p))) ;;
  fail_if (blen (tx_input (p0_unsigned_tx p)) <=? index) (Idx0TxInput index (blen (tx_input (p0_unsigned_tx p)))).
(** src/v0/bitcoin/mod.rs:633-636 [Psbt::checked_input]. *)
Definition checked_input0 (p : psbt0) (index : N) : res idxerr0 input0 :=
  _ <- check_index0 p index ;;
  expect (nth_N (p0_inputs p) index).
(** src/v0/bitcoin/mod.rs:619-630 [Psbt::spend_utxo]; indexing in lines 624 and 625 panics when
    out of range. *)
Definition spend_utxo (p : psbt0) (index : N) : res signerr0 txout :=
  i <- map_err S0IndexOutOfBounds (checked_input0 p index) ;;
  match i0_witness_utxo i with
  | Some u => Ok u
  | None =>
      match i0_non_witness_utxo i with
      | Some prev =>
          ti <- expect (nth_N (tx_input (p0_unsigned_tx p)) index) ;;
          expect (nth_N (tx_output prev) (ti_vout ti))
      | None => Err S0MissingSpendUtxo
      end
  end.
(** src/v0/bitcoin/mod.rs:668-703 [Psbt::output_type]. *)
Definition psbt0_output_type (p : psbt0) (index : N) : res signerr0 outtype :=
  i <- map_err S0IndexOutOfBounds (checked_input0 p index) ;;
  u <- spend_utxo p index ;;
  let spk := to_script u in
  if negb (is_witness_program spk || is_p2sh spk) then Ok Bare
  else if is_p2wpkh spk then Ok Wpkh
  else if is_p2wsh spk then Ok Wsh
  else if is_p2sh spk then
    if match i0_redeem_script i with Some s => is_p2wpkh s | None => false end then Ok ShWpkh
    else if match i0_redeem_script i with Some s => is_p2wsh s | None => false end then Ok ShWsh
    else Ok Sh
  else if is_p2tr spk then Ok Tr
  else Err S0UnknownOutputType.
(** src/v0/bitcoin/mod.rs:662-665 [Psbt::signing_algorithm] and 906-913. *)
Definition psbt0_signing_algorithm (p : psbt0) (index : N) : res signerr0 sigalgo :=
  t <- psbt0_output_type p index ;; Ok (outtype_algorithm t).

(** src/v0/bitcoin/map/input.rs:148-152 [Input::ecdsa_hash_ty]. *)
Definition input0_ecdsa_hash_ty (i : input0) : option N :=
  match i0_sighash_type i with
  | Some n => ecdsa_from_standard n
  | None => Some SIGHASH_ALL
  end.
(** src/v0/bitcoin/mod.rs:578-582: the sighash type of a taproot input. *)
Definition input0_taproot_hash_ty (i : input0) : option tap_ty :=
  sighash_tap_ty (match i0_sighash_type i with Some n => n | None => from_tap TDefault end).

Section Sign.
Context `{X : Ext} `{S : SignExt} `{T : SchnorrExt}.

(** [SighashCache::p2wpkh_signature_hash] (src/v0/bitcoin/mod.rs:534, 540), with the error that
    line 534 converts. *)
Definition p2wpkh_signature_hash0 (t : tx) (index : N) (script : bytes) (value ty : N) : res signerr0 bytes :=
  code <- ok_or (p2wpkh_script_code script) S0NotP2wpkhScript ;;
  if index <? blen (tx_input t) then Ok (segwit_digest t index code value ty) else Err S0P2wpkhIndex.

(** src/v0/bitcoin/mod.rs:501-556 [Psbt::sighash_ecdsa]; [t] is the transaction of the cache. *)
Definition psbt0_sighash_ecdsa (p : psbt0) (index : N) (t : tx) : res signerr0 (bytes * N) :=
  a <- psbt0_signing_algorithm p index ;;
  _ <- fail_if (match a with AlgoEcdsa => false | AlgoSchnorr => true end) S0WrongSigningAlgorithm ;;
  i <- map_err S0IndexOutOfBounds (checked_input0 p index) ;;
  u <- spend_utxo p index ;;
  let spk := to_script u in
  hash_ty <- ok_or (input0_ecdsa_hash_ty i) S0InvalidSighashType ;;
  ty <- psbt0_output_type p index ;;
  match ty with
  | Bare =>
      m <- expect (legacy_signature_hash t index spk hash_ty) ;;
      Ok (m, hash_ty)
  | Sh =>
      script_code <- ok_or (i0_redeem_script i) S0MissingRedeemScript ;;
      m <- expect (legacy_signature_hash t index script_code hash_ty) ;;
      Ok (m, hash_ty)
  | Wpkh =>
      m <- p2wpkh_signature_hash0 t index spk (to_value u) hash_ty ;;
      Ok (m, hash_ty)
  | ShWpkh =>
      redeem_script <- expect (i0_redeem_script i) ;;
      m <- p2wpkh_signature_hash0 t index redeem_script (to_value u) hash_ty ;;
      Ok (m, hash_ty)
  | Wsh | ShWsh =>
      witness_script <- ok_or (i0_witness_script i) S0MissingWitnessScript ;;
      m <- ok_or (p2wsh_signature_hash t index witness_script (to_value u) hash_ty) S0SegwitV0Sighash ;;
      Ok (m, hash_ty)
  | Tr => Err S0Unsupported
  end.

(** [SighashCache::taproot_signature_hash] of rust-bitcoin, reached from
    src/v0/bitcoin/mod.rs:602-611; [None] is [TaprootError].  All outputs spent must be given
    unless the type has ANYONECANPAY (0x80); SINGLE (3) needs an output with the index. *)
Definition taproot_signature_hash (t : tx) (index : N) (prev : prevouts) (leaf : option bytes) (ty : N) : option bytes :=
  let single_ok := negb ((ty =? 0x03) || (ty =? 0x83)) || (index <? blen (tx_output t)) in
  let prev_ok :=
    match prev with
    | PrevoutsAll l => blen l =? blen (tx_input t)
    | PrevoutsOne n _ => (128 <=? ty) && (index <? blen (tx_input t)) && (n =? index)
    end in
  if prev_ok && single_ok then Some (taproot_digest t index prev leaf ty) else None.

(** src/v0/bitcoin/mod.rs:584-585: [self.spend_utxo(i).ok()] for each index. *)
Fixpoint spend_utxos (p : psbt0) (indices : list N) : res signerr0 (list (option txout)) :=
  match indices with
  | [] => Ok []
  | n :: r =>
      u <- match spend_utxo p n with Ok u => Ok (Some u) | Err _ => Ok None | Panic => Panic end ;;
      us <- spend_utxos p r ;;
      Ok (u :: us)
  end.
(** [0..self.inputs.len()] (src/v0/bitcoin/mod.rs:313, 585). *)
Definition input_indices0 (p : psbt0) : list N := map N.of_nat (seq 0 (length (p0_inputs p))).
(** [filter_map(|x| *x)] (src/v0/bitcoin/mod.rs:596). *)
Definition somes {A} (l : list (option A)) : list A :=
  flat_map (fun o => match o with Some a => [a] | None => [] end) l.

(** src/v0/bitcoin/mod.rs:562-616 [Psbt::sighash_taproot]; [t] is the transaction of the cache. *)
Definition psbt0_sighash_taproot (p : psbt0) (index : N) (t : tx) (leaf : option bytes) : res signerr0 (bytes * N) :=
  a <- psbt0_signing_algorithm p index ;;
  _ <- fail_if (match a with AlgoEcdsa => true | AlgoSchnorr => false end) S0WrongSigningAlgorithm ;;
  i <- map_err S0IndexOutOfBounds (checked_input0 p index) ;;
  o <- psbt0_output_type p index ;;
  match o with
  | Tr =>
      hash_ty <- ok_or (input0_taproot_hash_ty i) S0InvalidSighashType ;;
      utxos <- spend_utxos p (input_indices0 p) ;;
      prev <- (if negb (N.land (from_tap hash_ty) 0x80 =? 0) then
                 o <- expect (nth_N utxos index) ;;
                 u <- ok_or o S0MissingSpendUtxo ;;
                 Ok (PrevoutsOne index u)
               else if forallb is_some utxos then Ok (PrevoutsAll (somes utxos))
               else Err S0MissingSpendUtxo) ;;
      m <- ok_or (taproot_signature_hash t index prev leaf (tap_num hash_ty)) S0TaprootError ;;
      Ok (m, tap_num hash_ty)
  | _ => Err S0Unsupported
  end.

(** src/v0/bitcoin/mod.rs:353-398 [Psbt::bip32_sign_ecdsa].  An error is returned before the
    first insertion, so that the PSBT is as before in that case. *)
Definition bip32_sign_ecdsa0 (k : provider) (index : N) (t : tx) (p : psbt0) : res signerr0 (psbt0 * list pubkey) :=
  match psbt0_sighash_ecdsa p index t with
  | Panic => Panic
  | msg =>
      i <- expect (nth_N (p0_inputs p) index) ;;
      '(sigs, used) <- sign_loop k msg (i0_bip32_derivation i) (i0_partial_sigs i) [] ;;
      Ok (set_p0_inputs (set_nth (N.to_nat index) (set_i0_partial_sigs sigs i) (p0_inputs p)) p, used)
  end.

(** src/v0/bitcoin/mod.rs:472-484: the loop over the leaf hashes. *)
Fixpoint sign_leaves (msg : option bytes -> res signerr0 (bytes * N)) (sk : privkey) (xonly : bytes)
    (leaves : list bytes) (sigs : list (xleaf * tsig)) : res signerr0 (list (xleaf * tsig)) :=
  match leaves with
  | [] => Ok sigs
  | lh :: r =>
      '(m, ty) <- msg (Some lh) ;;
      sign_leaves msg sk xonly r (m_put sk_xleaf (xonly, lh) (TSig (sign_schnorr m (pv_secret sk)) ty) sigs)
  end.
(** src/v0/bitcoin/mod.rs:440-460: the key path; input and keys used are the state. *)
Definition sign_key_path (msg : option bytes -> res signerr0 (bytes * N)) (sk : privkey) (xonly : bytes)
    (leaf_hashes : list bytes) (i : input0) (used : list bytes) : res signerr0 (input0 * list bytes) :=
  match i0_tap_internal_key i with
  | Some internal_key =>
      if bytes_eqb internal_key xonly && is_empty leaf_hashes && is_none (i0_tap_key_sig i) then
        '(m, ty) <- msg None ;;
        let key := tweak_secret (pv_secret sk) (i0_tap_merkle_root i) in
        Ok (set_i0_tap_key_sig (Some (TSig (sign_schnorr m key) ty)) i, used ++ [internal_key])
      else Ok (i, used)
  | None => Ok (i, used)
  end.
(** src/v0/bitcoin/mod.rs:462-488: the script path. *)
Definition sign_script_path (msg : option bytes -> res signerr0 (bytes * N)) (sk : privkey) (xonly : bytes)
    (i : input0) (used : list bytes) : res signerr0 (input0 * list bytes) :=
  match m_get bkey xonly (i0_tap_key_origins i) with
  | Some (leaf_hashes, _) =>
      let leaves := filter (fun lh => negb (m_mem sk_xleaf (xonly, lh) (i0_tap_script_sigs i))) leaf_hashes in
      if is_empty leaves then Ok (i, used)
      else
        sigs <- sign_leaves msg sk xonly leaves (i0_tap_script_sigs i) ;;
        Ok (set_i0_tap_script_sigs sigs i, used ++ [xonly_of (secret_pubkey (pv_secret sk))])
  | None => Ok (i, used)
  end.
(** src/v0/bitcoin/mod.rs:424-489: the loop over the key origins.  The loop runs over the
    origins of the input, which it does not change. *)
Fixpoint schnorr_loop (k : provider) (msg : option bytes -> res signerr0 (bytes * N))
    (l : list (bytes * taporigin)) (i : input0) (used : list bytes) : res signerr0 (input0 * list bytes) :=
  match l with
  | [] => Ok (i, used)
  | (xonly, (leaf_hashes, src)) :: r =>
      match k (KRBip32 src) with
      | inr (Some sk) =>
          '(i1, used1) <- sign_key_path msg sk xonly leaf_hashes i used ;;
          '(i2, used2) <- sign_script_path msg sk xonly i1 used1 ;;
          schnorr_loop k msg r i2 used2
      | _ => schnorr_loop k msg r i used
      end
  end.
(** src/v0/bitcoin/mod.rs:408-494 [Psbt::bip32_sign_schnorr]; the loop works on a copy of the
    input, which is dropped on error. *)
Definition bip32_sign_schnorr (k : provider) (index : N) (t : tx) (p : psbt0) : res signerr0 (psbt0 * list bytes) :=
  i <- map_err S0IndexOutOfBounds (checked_input0 p index) ;;
  '(i', used) <- schnorr_loop k (psbt0_sighash_taproot p index t) (i0_tap_key_origins i) i [] ;;
  Ok (set_p0_inputs (set_nth (N.to_nat index) i' (p0_inputs p)) p, used).

(** src/v0/bitcoin/mod.rs:313-338: the loop of [Psbt::sign].  The maps of keys and errors are
    lists in the order of the indices, which is the order of a [BTreeMap]. *)
Fixpoint sign_inputs0 (k : provider) (t : tx) (indices : list N) (p : psbt0)
    (used : list (N * signkeys)) (errors : list (N * signerr0))
    : res Empty_set (psbt0 * list (N * signkeys) * list (N * signerr0)) :=
  match indices with
  | [] => Ok (p, used, errors)
  | n :: r =>
      match psbt0_signing_algorithm p n with
      | Ok AlgoEcdsa =>
          match bip32_sign_ecdsa0 k n t p with
          | Ok (p', v) => sign_inputs0 k t r p' (used ++ [(n, KeysEcdsa v)]) errors
          | Err e => sign_inputs0 k t r p used (errors ++ [(n, e)])
          | Panic => Panic
          end
      | Ok AlgoSchnorr =>
          match bip32_sign_schnorr k n t p with
          | Ok (p', v) => sign_inputs0 k t r p' (used ++ [(n, KeysSchnorr v)]) errors
          | Err e => sign_inputs0 k t r p used (errors ++ [(n, e)])
          | Panic => Panic
          end
      | Err e => sign_inputs0 k t r p used (errors ++ [(n, e)])
      | Panic => Panic
      end
  end.
(** src/v0/bitcoin/mod.rs:298-344 [Psbt::sign]: the PSBT after the call, which has the new
    signatures also when there are errors, the keys used, and the errors.  Rust returns
    [Ok(used)] when there is no error, else [Err((used, errors))]. *)
Definition psbt0_sign (k : provider) (p : psbt0) : res Empty_set (psbt0 * list (N * signkeys) * list (N * signerr0)) :=
  sign_inputs0 k (p0_unsigned_tx p) (input_indices0 p) p [] [].

(** ** Signer checks *)

(** [ScriptBuf::new_p2sh(&script.script_hash())] (src/v0/mod.rs:77). *)
Definition script_to_p2sh (s : bytes) : bytes := [xa9; x14] ++ hash160 s ++ [x87].
(** [ScriptBuf::new_p2wsh(&script.wscript_hash())] (src/v0/mod.rs:91, 98). *)
Definition script_to_p2wsh (s : bytes) : bytes := [x00; x20] ++ sha256 s.

(** src/v0/mod.rs:60-66. *)
Definition check_witness_utxo (p : psbt0) (n : N) (i : input0) : res checkserr unit :=
  match i0_witness_utxo i with
  | Some _ =>
      match psbt0_output_type p n with
      | Ok Bare => Err SCNonWitnessSig
      | Panic => Panic
      | _ => Ok tt
      end
  | None => Ok tt
  end.
(** src/v0/mod.rs:68-72; indexing in line 69 panics when out of range. *)
Definition check_non_witness_utxo (p : psbt0) (n : N) (i : input0) : res checkserr unit :=
  match i0_non_witness_utxo i with
  | Some prev =>
      ti <- expect (nth_N (tx_input (p0_unsigned_tx p)) n) ;;
      fail_if (negb (bytes_eqb (compute_txid prev) (ti_txid ti))) SCNonWitnessUtxoTxidMismatch
  | None => Ok tt
  end.
(** src/v0/mod.rs:74-84. *)
Definition check_redeem_script (i : input0) : res checkserr unit :=
  match i0_redeem_script i with
  | Some redeem =>
      match i0_witness_utxo i with
      | Some u => fail_if (negb (bytes_eqb (to_script u) (script_to_p2sh redeem))) SCRedeemScriptMismatch
      | None => Err SCMissingTxOut
      end
  | None => Ok tt
  end.
(** src/v0/mod.rs:86-110. *)
Definition check_witness_script (i : input0) : res checkserr unit :=
  match i0_witness_script i with
  | Some wscript =>
      match i0_witness_utxo i with
      | Some u =>
          let spk := to_script u in
          if is_p2wsh spk then
            fail_if (negb (bytes_eqb (script_to_p2wsh wscript) spk)) SCWitnessScriptMismatchWsh
          else if is_p2sh spk then
            match i0_redeem_script i with
            | Some redeem => fail_if (negb (bytes_eqb (script_to_p2wsh redeem) spk)) SCWitnessScriptMismatchShWsh
            | None => Ok tt
            end
          else Ok tt
      | None => Err SCMissingTxOut
      end
  | None => Ok tt
  end.
(** src/v0/mod.rs:59-116: the loop over the inputs; the sighash type (line 112) is not looked
    at. *)
Fixpoint signer_checks_loop (p : psbt0) (n : N) (l : list input0) : res checkserr unit :=
  match l with
  | [] => Ok tt
  | i :: r =>
      _ <- check_witness_utxo p n i ;;
      _ <- check_non_witness_utxo p n i ;;
      _ <- check_redeem_script i ;;
      _ <- check_witness_script i ;;
      signer_checks_loop p (n + 1) r
  end.
(** src/v0/mod.rs:57-118 [Psbt::signer_checks]. *)
Definition signer_checks (p : psbt0) : res checkserr unit := signer_checks_loop p 0 (p0_inputs p).

End Sign.
