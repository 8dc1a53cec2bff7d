(** Model of the signer of src/v2/mod.rs (728-1194): output types, digests, signing and
    key lookup.  Signing and digest functions are external (rust-bitcoin, libsecp256k1)
    and enter through the class [SignExt]. *)
From Verif Require Import Base OMap Consensus Ext Raw TapTree Serialize MapCodec V2Global V2Input V2Output V2Psbt V2Roles Script SighashType.
Local Open Scope N_scope.

(** [bitcoin::PrivateKey] (src/v2/mod.rs:1033): compression flag and secret key. *)
Record privkey := PrivKey { pv_compressed : bool; pv_secret : bytes }.

Class SignExt := {
  (** The message hashed by [SighashCache::legacy_signature_hash] (src/v2/mod.rs:846, 853) for an
      index that is in range: transaction, input index, script code, sighash type. *)
  legacy_digest : tx -> N -> bytes -> N -> bytes;
  (** The message hashed by [SighashCache::p2wpkh_signature_hash] and [p2wsh_signature_hash]
      (src/v2/mod.rs:857, 863, 869) for an index that is in range: transaction, input index,
      script code, value, sighash type. *)
  segwit_digest : tx -> N -> bytes -> N -> N -> bytes;
  (** [Secp256k1::sign_ecdsa] (src/v2/mod.rs:803): the DER form of the signature of a message. *)
  sign_ecdsa : bytes -> bytes -> bytes;
  (** [Secp256k1::verify_ecdsa]: key in compressed form, message, signature.  Not called by the
      signer, used to state what a signature is. *)
  verify_ecdsa : bytes -> bytes -> bytes -> bool;
  (** [secp256k1::PublicKey::from_secret_key], reached from src/v2/mod.rs:807. *)
  secret_pubkey : bytes -> bytes;
  (** [bip32::Xpriv] (src/v2/mod.rs:1031-1053, 1066-1087). *)
  xprv : Type;
  xprv_fingerprint : xprv -> bytes;
  xprv_parent_fingerprint : xprv -> bytes;
  (** [Xpriv::derive_priv]; [None] is a bip32 error. *)
  xprv_derive : xprv -> list N -> option xprv;
  (** [Xpriv::to_priv]. *)
  xprv_to_priv : xprv -> privkey
}.

(** Facts about these functions that hold for the real ones. *)
Class SignLaws (X : Ext) (S : SignExt) : Prop := {
  (** A public key is a point. *)
  secret_pubkey_wf : forall k, wf_secp (secret_pubkey k);
  (** Signatures are in DER form. *)
  sign_ecdsa_der : forall m k, der_parse (sign_ecdsa m k) = Some (sign_ecdsa m k);
  (** Signatures verify. *)
  sign_verifies : forall m k, verify_ecdsa (secret_pubkey k) m (sign_ecdsa m k) = true
}.

(** src/v2/mod.rs:1006-1011 [KeyRequest]. *)
Inductive keyreq : Type :=
| KRPubkey (k : pubkey)
| KRBip32 (s : keysource).
(** src/v2/mod.rs:1115-1120 [GetKeyError]. *)
Inductive getkeyerr : Type := GKBip32 | GKNotSupported.
(** src/v2/mod.rs:1014-1029 [GetKey]: a key provider is a function of the request that does
    not panic and has no state. *)
Definition provider : Type := keyreq -> getkeyerr + option privkey.

(** src/v2/mod.rs:1154-1170 [OutputType]. *)
Inductive outtype : Type := Bare | Wpkh | Wsh | ShWpkh | ShWsh | Sh | Tr.
(** src/v2/mod.rs:1186-1194 [SigningAlgorithm]. *)
Inductive sigalgo : Type := AlgoEcdsa | AlgoSchnorr.
(** src/v2/mod.rs:1174-1181 [OutputType::signing_algorithm]. *)
Definition outtype_algorithm (t : outtype) : sigalgo :=
  match t with
  | Bare | Wpkh | Wsh | ShWpkh | ShWsh | Sh => AlgoEcdsa
  | Tr => AlgoSchnorr
  end.

(** src/v2/error.rs:107-140 [SignError], the variants that occur. *)
Inductive signerr : Type :=
| SEIndexOutOfBounds (e : ierridx)
| SEInvalidSighashType
| SEMissingRedeemScript
| SEFundingUtxo (e : fundingerr)
| SEMissingWitnessScript
| SESegwitV0Sighash
| SENotP2wpkhScript
| SEP2wpkhIndex
| SEUnknownOutputType
| SEWrongSigningAlgorithm
| SEUnsupported.

(** src/v2/error.rs [PartialSigsSighashTypeError]. *)
Inductive psigerr : Type :=
| PSNonStandardInput (index ty : N)
| PSNonStandardPartialSig (index ty : N)
| PSWrongFlag (index required got : N) (k : pubkey).

(** src/sighash_type.rs:67-69 [ecdsa_hash_ty]; a standard type is stored as its number. *)
Definition ecdsa_from_standard (n : N) : option N := option_map ecdsa_num (sighash_ecdsa_ty n).
(** [EcdsaSighashType::All]. *)
Definition SIGHASH_ALL : N := 1.
(** src/v2/map/input.rs:377-381 [Input::ecdsa_hash_ty]. *)
Definition input_ecdsa_hash_ty (i : input) : option N :=
  match in_sighash_type i with
  | Some n => ecdsa_from_standard n
  | None => Some SIGHASH_ALL
  end.

Section Sign.
Context `{X : Ext} `{C : Cfg} `{S : SignExt}.

(** [PrivateKey::public_key] (src/v2/mod.rs:807). *)
Definition privkey_public (k : privkey) : pubkey := PubKey (pv_compressed k) (secret_pubkey (pv_secret k)).

(** [SighashCache::legacy_signature_hash] for the transaction of the cache: [None] when the
    index is out of range. *)
Definition legacy_signature_hash (t : tx) (index : N) (script : bytes) (ty : N) : option bytes :=
  if index <? blen (tx_input t) then Some (legacy_digest t index script ty) else None.
(** [SighashCache::p2wpkh_signature_hash]. *)
Definition p2wpkh_signature_hash (t : tx) (index : N) (script : bytes) (value ty : N) : res signerr bytes :=
  code <- ok_or (p2wpkh_script_code script) SENotP2wpkhScript ;;
  if index <? blen (tx_input t) then Ok (segwit_digest t index code value ty) else Err SEP2wpkhIndex.
(** [SighashCache::p2wsh_signature_hash]. *)
Definition p2wsh_signature_hash (t : tx) (index : N) (script : bytes) (value ty : N) : option bytes :=
  if index <? blen (tx_input t) then Some (segwit_digest t index script value ty) else None.

(** src/v2/mod.rs:910-945 [Psbt::output_type]. *)
Definition psbt_output_type (p : psbt) (index : N) : res signerr outtype :=
  i <- map_err SEIndexOutOfBounds (checked_input p index) ;;
  u <- map_err SEFundingUtxo (input_funding_utxo i) ;;
  let spk := to_script u in
  if negb (is_witness_program spk || is_p2sh spk) then Ok Bare
  else if is_p2wpkh spk then Ok Wpkh
  else if is_p2wsh spk then Ok Wsh
  else if is_p2sh spk then
    if match in_redeem_script i with Some s => is_p2wpkh s | None => false end then Ok ShWpkh
    else if match in_redeem_script i with Some s => is_p2wsh s | None => false end then Ok ShWsh
    else Ok Sh
  else if is_p2tr spk then Ok Tr
  else Err SEUnknownOutputType.

(** src/v2/mod.rs:904-907 [Psbt::signing_algorithm]. *)
Definition psbt_signing_algorithm (p : psbt) (index : N) : res signerr sigalgo :=
  t <- psbt_output_type p index ;; Ok (outtype_algorithm t).

(** src/v2/mod.rs:824-879 [Psbt::sighash_ecdsa]; [t] is the transaction of the cache. *)
Definition psbt_sighash_ecdsa (p : psbt) (index : N) (t : tx) : res signerr (bytes * N) :=
  a <- psbt_signing_algorithm p index ;;
  _ <- fail_if (match a with AlgoEcdsa => false | AlgoSchnorr => true end) SEWrongSigningAlgorithm ;;
  i <- map_err SEIndexOutOfBounds (checked_input p index) ;;
  u <- map_err SEFundingUtxo (input_funding_utxo i) ;;
  let spk := to_script u in
  hash_ty <- ok_or (input_ecdsa_hash_ty i) SEInvalidSighashType ;;
  ty <- psbt_output_type p index ;;
  match ty with
  | Bare =>
      m <- expect (legacy_signature_hash t index spk hash_ty) ;;
      Ok (m, hash_ty)
  | Sh =>
      script_code <- ok_or (in_redeem_script i) SEMissingRedeemScript ;;
      m <- expect (legacy_signature_hash t index script_code hash_ty) ;;
      Ok (m, hash_ty)
  | Wpkh =>
      m <- p2wpkh_signature_hash t index spk (to_value u) hash_ty ;;
      Ok (m, hash_ty)
  | ShWpkh =>
      redeem_script <- expect (in_redeem_script i) ;;
      m <- p2wpkh_signature_hash t index redeem_script (to_value u) hash_ty ;;
      Ok (m, hash_ty)
  | Wsh | ShWsh =>
      witness_script <- ok_or (in_witness_script i) SEMissingWitnessScript ;;
      m <- ok_or (p2wsh_signature_hash t index witness_script (to_value u) hash_ty) SESegwitV0Sighash ;;
      Ok (m, hash_ty)
  | Tr => Err SEUnsupported
  end.

(** src/v2/mod.rs:788-794 and src/v0/bitcoin/mod.rs:372-378: ask for the key by origin, then by
    public key; [None] is [continue]. *)
Definition find_key (k : provider) (pk : bytes) (src : keysource) : option privkey :=
  match k (KRBip32 src) with
  | inr (Some sk) => Some sk
  | _ =>
      match k (KRPubkey (PubKey true pk)) with
      | inr (Some sk) => Some sk
      | _ => None
      end
  end.

(** src/v2/mod.rs:787-811 and src/v0/bitcoin/mod.rs:371-395: the loop over the derivations; the
    partial signatures of the input and the keys used are the loop state.  The two versions
    differ in the type of the error. *)
Fixpoint sign_loop {E : Type} (k : provider) (msg : res E (bytes * N)) (l : list (bytes * keysource))
    (sigs : list (pubkey * esig)) (used : list pubkey) : res E (list (pubkey * esig) * list pubkey) :=
  match l with
  | [] => Ok (sigs, used)
  | (pk, src) :: l' =>
      match find_key k pk src with
      | None => sign_loop k msg l' sigs used
      | Some sk =>
          '(m, ty) <- msg ;;
          let pk' := privkey_public sk in
          sign_loop k msg l' (m_put sk_pubkey pk' (ESig (sign_ecdsa m (pv_secret sk)) ty) sigs) (used ++ [pk'])
      end
  end.

(** src/v2/mod.rs:769-817 [Psbt::bip32_sign_ecdsa].  The indexing in line 784 panics if the
    index is out of bounds; [expect] in line 813 panics if the digest could not be computed
    and no key was found. *)
Definition bip32_sign_ecdsa (k : provider) (index : N) (t : tx) (p : psbt) : res signerr (psbt * list pubkey) :=
  match psbt_sighash_ecdsa p index t with
  | Panic => Panic
  | msg =>
      i <- expect (nth_N (p_inputs p) index) ;;
      '(sigs, used) <- sign_loop k msg (in_bip32_derivations i) (in_partial_sigs i) [] ;;
      ty <- expect (match msg with Ok (_, ty) => Some ty | _ => None end) ;;
      let p' := set_p_inputs (set_nth (N.to_nat index) (set_in_partial_sigs sigs i) (p_inputs p)) p in
      Ok (clear_tx_modifiable ty p', used)
  end.

(** src/v2/mod.rs:744-752: the loop body.  The loop runs over [0..input_count]; the indices
    from [inputs.len()] on have no signing algorithm and are skipped, so that the model runs
    over the inputs.  An error of [bip32_sign_ecdsa] leaves the PSBT as it was: it returns
    before the first insertion. *)
Fixpoint sign_inputs (k : provider) (t : tx) (indices : list N) (p : psbt)
    (used : list (N * list pubkey)) (errors : list (N * signerr))
    : res signerr (psbt * list (N * list pubkey) * list (N * signerr)) :=
  match indices with
  | [] => Ok (p, used, errors)
  | n :: r =>
      match psbt_signing_algorithm p n with
      | Ok AlgoEcdsa =>
          match bip32_sign_ecdsa k n t p with
          | Ok (p', v) => sign_inputs k t r p' (used ++ [(n, v)]) errors
          | Err e => sign_inputs k t r p used (errors ++ [(n, e)])
          | Panic => Panic
          end
      | Panic => Panic
      | _ => sign_inputs k t r p used errors
      end
  end.

(** The indices of the inputs. *)
Definition input_indices (p : psbt) : list N := map N.of_nat (seq 0 (length (p_inputs p))).

(** src/v2/mod.rs:728-760 [Psbt::sign] and 471-483 [Signer::sign].  The maps of keys and errors
    are lists in the order of the indices, which is the order of a [BTreeMap].  The PSBT is
    returned only when there is no error. *)
Definition signer_sign (k : provider) (p : psbt)
    : res (list (N * list pubkey) * list (N * signerr)) (psbt * list (N * list pubkey)) :=
  t <- signer_unsigned_tx p ;;
  match sign_inputs k t (input_indices p) p [] [] with
  | Ok (p', used, []) => Ok (p', used)
  | Ok (_, used, errors) => Err (used, errors)
  | Err e => Err ([], [])
  | Panic => Panic
  end.

(** src/v2/mod.rs:984-997: the loop over the partial signatures of an input. *)
Fixpoint check_sigs (index target : N) (l : list (pubkey * esig)) : res psigerr unit :=
  match l with
  | [] => Ok tt
  | (k, s) :: r =>
      flag <- ok_or (ecdsa_from_standard (es_type s)) (PSNonStandardPartialSig index (es_type s)) ;;
      _ <- fail_if (negb (target =? flag)) (PSWrongFlag index target flag k) ;;
      check_sigs index target r
  end.
(** src/v2/mod.rs:978-998: the loop over the inputs. *)
Fixpoint check_inputs_sigs (index : N) (l : list input) : res psigerr unit :=
  match l with
  | [] => Ok tt
  | i :: r =>
      target <- match in_sighash_type i with
                | Some n => ok_or (ecdsa_from_standard n) (PSNonStandardInput index n)
                | None => Ok SIGHASH_ALL
                end ;;
      _ <- check_sigs index target (in_partial_sigs i) ;;
      check_inputs_sigs (index + 1) r
  end.
(** src/v2/mod.rs:973-1000 [Psbt::check_partial_sigs_sighash_type]. *)
Definition check_partial_sigs_sighash_type (p : psbt) : res psigerr unit := check_inputs_sigs 0 (p_inputs p).

(** ** Key providers *)

(** src/v2/mod.rs:1031-1053 [GetKey for Xpriv]; the same in src/v0/bitcoin/mod.rs:756-778. *)
Definition xprv_get_key (x : xprv) : provider :=
  fun r =>
    match r with
    | KRPubkey _ => inl GKNotSupported
    | KRBip32 s =>
        if bytes_eqb (xprv_fingerprint x) (ks_fp s) then
          match xprv_derive x (ks_path s) with
          | Some k => inr (Some (xprv_to_priv k))
          | None => inl GKBip32
          end
        else inr None
    end.

(** src/v2/mod.rs:1066-1087 [GetKey for BTreeSet<Xpriv>] and [HashSet<Xpriv>]; the elements in
    the order of iteration.  The same in src/v0/bitcoin/mod.rs:801-822. *)
Definition set_get_key (l : list xprv) : provider :=
  fun r =>
    match r with
    | KRPubkey _ => inl GKNotSupported
    | KRBip32 s =>
        match find (fun x => bytes_eqb (xprv_parent_fingerprint x) (ks_fp s)) l with
        | Some x =>
            match xprv_derive x (ks_path s) with
            | Some k => inr (Some (xprv_to_priv k))
            | None => inl GKBip32
            end
        | None => inr None
        end
    end.

(** src/v2/mod.rs:1093-1108 [GetKey for BTreeMap<PublicKey, PrivateKey>] and [HashMap]; the
    same in src/v0/bitcoin/mod.rs:831-845. *)
Definition map_get_key (m : list (pubkey * privkey)) : provider :=
  fun r =>
    match r with
    | KRPubkey k => inr (m_get sk_pubkey k m)
    | KRBip32 _ => inl GKNotSupported
    end.

End Sign.
