(** Model of the finalizer and extractor of src/v0/miniscript (finalizer.rs, util.rs, and mod.rs up
    to line 718).  Miniscript itself is external (rust-miniscript 12) and enters through [MsExt]
    (V2Finalize.v) and [MsNmExt]; its functions are taken not to panic.  Error payloads of
    rust-miniscript are dropped.  [secp: &Secp256k1<C>] is a verification context without
    content. *)
From Verif Require Import Base OMap Consensus Ext Raw TapTree Serialize MapCodec V2Global V2Input V2Psbt V2Roles
  Script SighashType V2Sign V2Finalize V0Error V0Input V0Output V0Psbt V0Sign.
Local Open Scope N_scope.

Class MsNmExt (M : MsExt) := {
  (** [Miniscript::satisfy], which looks for a satisfaction that nobody else can change
      (src/v0/miniscript/finalizer.rs:84, and from 416). *)
  ms_satisfy_nm : msctx -> ms -> satisfier -> option (list bytes)
}.

(** src/v0/miniscript/mod.rs:88-148 [InputError], the errors that are returned. *)
Inductive inputerr0 : Type :=
| J0Key
| J0CouldNotSatisfyTr
| J0Interpreter
| J0NonStandardSighash
| J0InvalidRedeemScript (redeem expected : bytes)
| J0InvalidWitnessScript (script expected : bytes)
| J0Miniscript
| J0MissingRedeemScript
| J0MissingWitness
| J0MissingPubkey
| J0MissingWitnessScript
| J0MissingUtxo
| J0NonEmptyWitnessScript
| J0NonEmptyRedeemScript
| J0NonStandardSighashType
| J0WrongSighashFlag (required got : N) (k : pubkey).
(** src/v0/miniscript/mod.rs:39-55 [Error]. *)
Inductive msferr0 : Type :=
| M0Input (e : inputerr0) (index : N)
| M0WrongInputCount (in_tx in_map : N)
| M0InputIdxOutofBounds (psbt_inp index : N).

(** src/v0/miniscript/finalizer.rs:113-124 [get_utxo]; the indexing in lines 114, 118 and 119
    panics when out of range. *)
Definition get_utxo (p : psbt0) (index : N) : res inputerr0 txout :=
  i <- expect (nth_N (p0_inputs p) index) ;;
  match i0_witness_utxo i with
  | Some u => Ok u
  | None =>
      match i0_non_witness_utxo i with
      | Some prev =>
          ti <- expect (nth_N (tx_input (p0_unsigned_tx p)) index) ;;
          expect (nth_N (tx_output prev) (ti_vout ti))
      | None => Err J0MissingUtxo
      end
  end.
(** src/v0/miniscript/finalizer.rs:108-110 [get_scriptpubkey]. *)
Definition get_scriptpubkey (p : psbt0) (index : N) : res inputerr0 bytes :=
  u <- get_utxo p index ;; Ok (to_script u).
(** src/v0/miniscript/finalizer.rs:129-132: the loop of [prevouts]. *)
Fixpoint prevouts_loop (p : psbt0) (indices : list N) : res msferr0 (list txout) :=
  match indices with
  | [] => Ok []
  | n :: r =>
      u <- map_err (fun e => M0Input e n) (get_utxo p n) ;;
      us <- prevouts_loop p r ;;
      Ok (u :: us)
  end.
(** src/v0/miniscript/finalizer.rs:127-134 [prevouts]. *)
Definition psbt0_prevouts (p : psbt0) : res msferr0 (list txout) := prevouts_loop p (input_indices0 p).

(** src/v0/miniscript/mod.rs:398-419: the signatures of one input have the sighash type
    [target]. *)
Fixpoint sanity_check_sigs (target : N) (l : list (pubkey * esig)) : res inputerr0 unit :=
  match l with
  | [] => Ok tt
  | (k, s) :: l' =>
      flag <- ok_or (ecdsa_from_standard (es_type s)) J0NonStandardSighash ;;
      _ <- fail_if (negb (target =? flag)) (J0WrongSighashFlag target flag k) ;;
      sanity_check_sigs target l'
  end.
(** src/v0/miniscript/mod.rs:390-420: the loop over the inputs. *)
Fixpoint sanity_check_inputs (index : N) (l : list input0) : res msferr0 unit :=
  match l with
  | [] => Ok tt
  | i :: l' =>
      target <- map_err (fun e => M0Input e index) (ok_or (input0_ecdsa_hash_ty i) J0NonStandardSighashType) ;;
      _ <- map_err (fun e => M0Input e index) (sanity_check_sigs target (i0_partial_sigs i)) ;;
      sanity_check_inputs (index + 1) l'
  end.
(** src/v0/miniscript/mod.rs:381-423 [sanity_check]. *)
Definition sanity_check (p : psbt0) : res msferr0 unit :=
  let in_tx := blen (tx_input (p0_unsigned_tx p)) in
  let in_map := blen (p0_inputs p) in
  _ <- fail_if (negb (in_tx =? in_map)) (M0WrongInputCount in_tx in_map) ;;
  sanity_check_inputs 0 (p0_inputs p).

Section Finalize.
Context `{X : Ext} `{M : MsExt} `{NM : !MsNmExt M}.

(** ** The satisfier, src/v0/miniscript/mod.rs:257-366 *)

(** src/v0/miniscript/mod.rs:318-326 [check_after]; [Sequence::enables_lock_time] is "not
    0xffffffff", [absolute::LockTime::is_implied_by] compares values of the same unit. *)
Definition check_after0 (t : tx) (ti : txin) (n : N) : bool :=
  if ti_sequence ti =? SEQ_MAX then false
  else
    let lock_time := tx_lock_time t in
    Bool.eqb (n <? LOCK_TIME_THRESHOLD) (lock_time <? LOCK_TIME_THRESHOLD) && (n <=? lock_time).
(** src/v0/miniscript/mod.rs:328-337 [check_older].  The version is compared as a signed
    number. *)
Definition check_older0 (t : tx) (ti : txin) (n : rellock) : bool :=
  if (tx_version t <? 2) || (2 ^ 31 <=? tx_version t) then false
  else
    match rel_from_sequence (ti_sequence ti) with
    | None => false
    | Some lock_time => rel_implied_by n lock_time
    end.
(** src/v0/miniscript/mod.rs:257-366 [PsbtInputSatisfier], for the input [ti] of the transaction
    [t] with the map [i]. *)
Definition psbt_input_satisfier (t : tx) (ti : txin) (i : input0) : satisfier := {|
  (* 258-260 *)
  sat_tap_key := i0_tap_key_sig i;
  (* 262-271 *)
  sat_tap_leaf := fun pk lh => m_get sk_xleaf (pk, lh) (i0_tap_script_sigs i);
  (* 273-279 *)
  sat_pkh_pk := fun h =>
    option_map (fun e : bytes * keysource => PubKey true (fst e))
      (find (fun e => bytes_eqb (pubkey_hash (PubKey true (fst e))) h) (i0_bip32_derivation i));
  (* 287-298 *)
  sat_pkh_tap := fun h lh =>
    option_map (fun e : xleaf * tsig => (fst (fst e), snd e))
      (find (fun e => bytes_eqb (hash160 (fst (fst e))) h && bytes_eqb (snd (fst e)) lh) (i0_tap_script_sigs i));
  (* 300-305 *)
  sat_ecdsa := fun pk => m_get sk_pubkey pk (i0_partial_sigs i);
  (* 307-316 *)
  sat_pkh_ecdsa := fun h => find (fun e => bytes_eqb (pubkey_hash (fst e)) h) (i0_partial_sigs i);
  sat_after := check_after0 t ti;
  sat_older := check_older0 t ti;
  (* 339-365 *)
  sat_hash160 := lookup_preimage (i0_hash160_preimages i);
  sat_sha256 := lookup_preimage (i0_sha256_preimages i);
  sat_hash256 := lookup_preimage (i0_hash256_preimages i);
  sat_ripemd160 := lookup_preimage (i0_ripemd160_preimages i)
|}.

(** ** Descriptors *)

(** src/v0/miniscript/finalizer.rs:145-155: the compressed keys of all inputs by their hash. *)
Definition known_keys0 (inputs : list input0) : list (bytes * pubkey) :=
  fold_left (fun acc i =>
    fold_left (fun acc e => m_put bkey (pubkey_hash (PubKey true (fst e))) (PubKey true (fst e)) acc)
      (i0_bip32_derivation i) acc) inputs [].

(** [Descriptor::new_wsh(..)?] and the like (src/v0/miniscript/finalizer.rs:217, 244, 276, 295). *)
Definition new_desc0 (c : msctx) (mk : ms -> desc) (m : ms) : res inputerr0 desc :=
  if ms_top_level c m then Ok (mk m) else Err J0Miniscript.

(** The search of src/v0/miniscript/finalizer.rs:186-196 and 250-261. *)
Definition find_wpkh0 (i : input0) (script : bytes) : option (pubkey * esig) :=
  find (fun e => pub_compressed (fst e) && bytes_eqb script (p2wpkh_of (fst e))) (i0_partial_sigs i).

(** src/v0/miniscript/finalizer.rs:144-297 [get_descriptor]; see [V2Finalize.get_descriptor] for
    the descriptors that are not made for some keys. *)
Definition get_descriptor0 (p : psbt0) (index : N) : res inputerr0 desc :=
  let map := known_keys0 (p0_inputs p) in
  spk <- get_scriptpubkey p index ;;
  i <- expect (nth_N (p0_inputs p) index) ;;
  if is_p2pk spk then
    match de_pubkey (removelast (tl spk)) with
    | Ok pk => Ok (DPk pk)
    | _ => Err J0Key
    end
  else if is_p2pkh spk then
    match find (fun e : pubkey * esig => bytes_eqb spk (p2pkh_of (fst e))) (i0_partial_sigs i) with
    | Some (pk, _) => Ok (DPkh pk)
    | None => Err J0MissingPubkey
    end
  else if is_p2wpkh spk then
    match find_wpkh0 i spk with
    | Some (pk, _) => Ok (DWpkh pk)
    | None => Err J0MissingPubkey
    end
  else if is_p2wsh spk then
    if is_some (i0_redeem_script i) then Err J0NonEmptyRedeemScript
    else
      match i0_witness_script i with
      | Some ws =>
          if negb (bytes_eqb (to_p2wsh ws) spk) then Err (J0InvalidWitnessScript ws spk)
          else
            m <- ok_or (ms_parse CSegwitv0 ws) J0Miniscript ;;
            new_desc0 CSegwitv0 DWsh (ms_substitute map m)
      | None => Err J0MissingWitnessScript
      end
  else if is_p2sh spk then
    match i0_redeem_script i with
    | None => Err J0MissingRedeemScript
    | Some rs =>
        if negb (bytes_eqb (to_p2sh rs) spk) then Err (J0InvalidRedeemScript rs spk)
        else if is_p2wsh rs then
          match i0_witness_script i with
          | Some ws =>
              if negb (bytes_eqb (to_p2wsh ws) rs) then Err (J0InvalidWitnessScript ws rs)
              else
                m <- ok_or (ms_parse CSegwitv0 ws) J0Miniscript ;;
                new_desc0 CSegwitv0 DShWsh (ms_substitute map m)
          | None => Err J0MissingWitnessScript
          end
        else if is_p2wpkh rs then
          match find_wpkh0 i rs with
          | Some (pk, _) => Ok (DShWpkh pk)
          | None => Err J0MissingPubkey
          end
        else if is_some (i0_witness_script i) then Err J0NonEmptyWitnessScript
        else
          m <- ok_or (ms_parse CLegacy rs) J0Miniscript ;;
          new_desc0 CLegacy DSh m
    end
  else if is_some (i0_witness_script i) then Err J0NonEmptyWitnessScript
  else if is_some (i0_redeem_script i) then Err J0NonEmptyRedeemScript
  else
    m <- ok_or (ms_parse CBare spk) J0Miniscript ;;
    new_desc0 CBare DBare (ms_substitute map m).

(** [satisfy_malleable] or [satisfy] (src/v0/miniscript/finalizer.rs:78-88, 416-420). *)
Definition satisfy0 (allow_mall : bool) : msctx -> ms -> satisfier -> option (list bytes) :=
  if allow_mall then ms_satisfy else ms_satisfy_nm.
(** [Descriptor::get_satisfaction_mall] and [get_satisfaction] of rust-miniscript
    (src/v0/miniscript/finalizer.rs:416-420): witness and script sig. *)
Definition desc_satisfaction0 (allow_mall : bool) (d : desc) (s : satisfier) : option (witness * bytes) :=
  let satisfy := satisfy0 allow_mall in
  match d with
  | DPk k => option_map (fun sg => ([], ms_script_sig [ser_esig sg])) (sat_ecdsa s k)
  | DPkh k => option_map (fun sg => ([], push_slice (ser_esig sg) ++ push_slice (ser_pubkey k))) (sat_ecdsa s k)
  | DWpkh k => option_map (fun sg => ([ser_esig sg; ser_pubkey k], [])) (sat_ecdsa s k)
  | DShWpkh k => option_map (fun sg => ([ser_esig sg; ser_pubkey k], push_slice (p2wpkh_of k))) (sat_ecdsa s k)
  | DWsh m => option_map (fun w => (w ++ [ms_encode m], [])) (satisfy CSegwitv0 m s)
  | DShWsh m => option_map (fun w => (w ++ [ms_encode m], push_slice (to_p2wsh (ms_encode m)))) (satisfy CSegwitv0 m s)
  | DSh m => option_map (fun w => ([], ms_script_sig (w ++ [ms_encode m]))) (satisfy CLegacy m s)
  | DBare m => option_map (fun w => ([], ms_script_sig w)) (satisfy CBare m s)
  end.

(** ** Taproot *)

(** src/v0/miniscript/finalizer.rs:41-52: the keys of all inputs by their hash. *)
Definition tap_key_map0 (inputs : list input0) : list (bytes * bytes) :=
  fold_left (fun acc i =>
    fold_left (fun acc e => m_put bkey (hash160 (fst e)) (fst e) acc) (i0_tap_key_origins i) acc) inputs [].

(** One iteration of src/v0/miniscript/finalizer.rs:66-90: the witness of a leaf, if there is
    one. *)
Definition leaf_witness0 (allow_mall : bool) (keys : list (bytes * bytes)) (s : satisfier)
    (leaf : controlblock * leafscript) : option witness :=
  let '(cb, (script, ver)) := leaf in
  if negb (ver =? 192) then None
  else
    match ms_parse CTap script with
    | None => None
    | Some m =>
        let m := ms_substitute_tap keys m in
        match satisfy0 allow_mall CTap m s with
        | None => None
        | Some wit => Some (wit ++ [ms_encode m; ser_controlblock cb])
        end
    end.
(** src/v0/miniscript/finalizer.rs:62-99, the loop: the smallest witness so far, by
    [witness_size] (src/v0/miniscript/util.rs:41-46, the same as in v2). *)
Fixpoint tap_loop0 (allow_mall : bool) (keys : list (bytes * bytes)) (s : satisfier)
    (l : list (controlblock * leafscript)) (min_wit : option witness) : option witness :=
  match l with
  | [] => min_wit
  | leaf :: l' =>
      tap_loop0 allow_mall keys s l'
        match leaf_witness0 allow_mall keys s leaf with
        | None => min_wit
        | Some wit =>
            match min_wit with
            | Some best => if witness_size best <? witness_size wit then min_wit else Some wit
            | None => Some wit
            end
        end
  end.
(** src/v0/miniscript/finalizer.rs:34-105 [construct_tap_witness]; the [assert!] of line 53. *)
Definition construct_tap_witness0 (allow_mall : bool) (inputs : list input0) (spk : bytes) (i : input0) (s : satisfier)
    : res inputerr0 witness :=
  _ <- panic_unless (is_p2tr spk) ;;
  match sat_tap_key s with
  | Some sig => Ok [ser_tsig sig]
  | None => ok_or (tap_loop0 allow_mall (tap_key_map0 inputs) s (i0_tap_scripts i) None) J0CouldNotSatisfyTr
  end.

(** ** The finalizer *)

(** src/v0/miniscript/finalizer.rs:326-351 [interpreter_inp_check]; the indexing in line 341
    panics when out of range. *)
Definition interpreter_inp_check (p : psbt0) (index : N) (utxos : list txout) (w : witness) (ss : bytes)
    : res msferr0 unit :=
  spk <- map_err (fun e => M0Input e index) (get_scriptpubkey p index) ;;
  ti <- expect (nth_N (tx_input (p0_unsigned_tx p)) index) ;;
  let t := p0_unsigned_tx p in
  match ms_interpret spk ss w (ti_sequence ti) (tx_lock_time t) t index utxos with
  | IOk => Ok tt
  | _ => Err (M0Input J0Interpreter index)
  end.

(** src/v0/miniscript/finalizer.rs:401-423: witness and script sig, before the interpreter runs.
    When the transaction has no input with the index, Rust panics when miniscript asks for a
    lock time (src/v0/miniscript/mod.rs:319, 329) or else in line 341 if the input can be
    satisfied; the model panics when the satisfier is made. *)
Definition build_final (allow_mall : bool) (p : psbt0) (index : N) : res inputerr0 (witness * bytes) :=
  spk <- get_scriptpubkey p index ;;
  i <- expect (nth_N (p0_inputs p) index) ;;
  ti <- expect (nth_N (tx_input (p0_unsigned_tx p)) index) ;;
  let s := psbt_input_satisfier (p0_unsigned_tx p) ti i in
  if is_p2tr spk then
    w <- construct_tap_witness0 allow_mall (p0_inputs p) spk i s ;;
    Ok (w, [])
  else
    d <- get_descriptor0 p index ;;
    ok_or (desc_satisfaction0 allow_mall d s) J0Miniscript.

(** src/v0/miniscript/finalizer.rs:395-431 [finalize_input_helper]: witness and script sig. *)
Definition finalize_input_helper (allow_mall : bool) (p : psbt0) (index : N) : res msferr0 (witness * bytes) :=
  '(w, ss) <- map_err (fun e => M0Input e index) (build_final allow_mall p index) ;;
  utxos <- psbt0_prevouts p ;;
  _ <- interpreter_inp_check p index utxos w ss ;;
  Ok (w, ss).

(** src/v0/miniscript/finalizer.rs:443-458: the input after finalization. *)
Definition finalized_input0 (i : input0) (w : witness) (ss : bytes) : input0 :=
  set_i0_final_script_witness (if is_empty w then None else Some w)
    (set_i0_final_script_sig (if is_empty ss then None else Some ss)
      (set_i0_witness_utxo (i0_witness_utxo i)
        (set_i0_non_witness_utxo (i0_non_witness_utxo i) input0_default))).
(** src/v0/miniscript/finalizer.rs:433-461 [finalize_input]: the PSBT, which is not changed when
    there is an error. *)
Definition finalize_input0 (allow_mall : bool) (p : psbt0) (index : N) : res msferr0 psbt0 :=
  '(w, ss) <- finalize_input_helper allow_mall p index ;;
  i <- expect (nth_N (p0_inputs p) index) ;;
  Ok (set_p0_inputs (set_nth (N.to_nat index) (finalized_input0 i w ss) (p0_inputs p)) p).

(** src/v0/miniscript/mod.rs:598-605, 628-635: the loops of [finalize_mut] and
    [finalize_mall_mut]. *)
Fixpoint finalize_all (allow_mall : bool) (indices : list N) (p : psbt0) (errors : list msferr0)
    : res Empty_set (psbt0 * list msferr0) :=
  match indices with
  | [] => Ok (p, errors)
  | n :: r =>
      match finalize_input0 allow_mall p n with
      | Ok p' => finalize_all allow_mall r p' errors
      | Err e => finalize_all allow_mall r p (errors ++ [e])
      | Panic => Panic
      end
  end.
(** src/v0/miniscript/mod.rs:592-611 [finalize_mut] (and 613-621 [finalize]): the PSBT after the
    call and the errors; Rust returns [Ok] when there are none. *)
Definition finalize_mut (p : psbt0) : res Empty_set (psbt0 * list msferr0) :=
  finalize_all false (input_indices0 p) p [].
(** src/v0/miniscript/mod.rs:623-641 [finalize_mall_mut] (and 643-651 [finalize_mall]). *)
Definition finalize_mall_mut (p : psbt0) : res Empty_set (psbt0 * list msferr0) :=
  finalize_all true (input_indices0 p) p [].
(** src/v0/miniscript/mod.rs:653-662 [finalize_inp_mut] (and 664-673 [finalize_inp]). *)
Definition finalize_inp_mut (p : psbt0) (index : N) : res msferr0 psbt0 :=
  _ <- fail_if (blen (p0_inputs p) <=? index) (M0InputIdxOutofBounds (blen (p0_inputs p)) index) ;;
  finalize_input0 false p index.
(** src/v0/miniscript/mod.rs:675-684 [finalize_inp_mall_mut] (and 686-695 [finalize_inp_mall]);
    line 683 passes [false]. *)
Definition finalize_inp_mall_mut (p : psbt0) (index : N) : res msferr0 psbt0 :=
  _ <- fail_if (blen (p0_inputs p) <=? index) (M0InputIdxOutofBounds (blen (p0_inputs p)) index) ;;
  finalize_input0 false p index.

(** src/v0/miniscript/finalizer.rs:386-388: the loop of [finalize_helper].  The PSBT after the
    call, and the error if there is one. *)
Fixpoint finalize_until (allow_mall : bool) (indices : list N) (p : psbt0) : res Empty_set (psbt0 * option msferr0) :=
  match indices with
  | [] => Ok (p, None)
  | n :: r =>
      match finalize_input0 allow_mall p n with
      | Ok p' => finalize_until allow_mall r p'
      | Err e => Ok (p, Some e)
      | Panic => Panic
      end
  end.
(** src/v0/miniscript/finalizer.rs:378-391 [finalize_helper]; [finalize] (363-368) and
    [finalize_mall] (371-376) call it. *)
Definition finalize_helper (allow_mall : bool) (p : psbt0) : res Empty_set (psbt0 * option msferr0) :=
  match sanity_check p with
  | Ok _ => finalize_until allow_mall (input_indices0 p) p
  | Err e => Ok (p, Some e)
  | Panic => Panic
  end.

(** ** The extractor *)

(** src/v0/miniscript/finalizer.rs:310-321: the loop of [interpreter_check]. *)
Fixpoint interpreter_check_loop (p : psbt0) (utxos : list txout) (index : N) (l : list input0) : res msferr0 unit :=
  match l with
  | [] => Ok tt
  | i :: l' =>
      _ <- interpreter_inp_check p index utxos (opt_default [] (i0_final_script_witness i))
             (opt_default [] (i0_final_script_sig i)) ;;
      interpreter_check_loop p utxos (index + 1) l'
  end.
(** src/v0/miniscript/finalizer.rs:304-323 [interpreter_check]. *)
Definition interpreter_check0 (p : psbt0) : res msferr0 unit :=
  utxos <- psbt0_prevouts p ;;
  interpreter_check_loop p utxos 0 (p0_inputs p).

(** src/v0/miniscript/mod.rs:704-715: the loop of [extract].  [sanity_check] has seen that the
    transaction has as many inputs as there are maps. *)
Fixpoint extract_inputs (index : N) (l : list txin) (is : list input0) : res msferr0 (list txin) :=
  match l, is with
  | t :: l', i :: is' =>
      _ <- fail_if (is_none (i0_final_script_sig i) && is_none (i0_final_script_witness i)) (M0Input J0MissingWitness index) ;;
      r <- extract_inputs (index + 1) l' is' ;;
      Ok (TxIn (ti_txid t) (ti_vout t) (opt_default (ti_script_sig t) (i0_final_script_sig i)) (ti_sequence t)
            (opt_default (ti_witness t) (i0_final_script_witness i)) :: r)
  | _, _ => Ok l
  end.
(** src/v0/miniscript/mod.rs:697-718 [PsbtExt::extract]. *)
Definition extract_checked (p : psbt0) : res msferr0 tx :=
  _ <- sanity_check p ;;
  let t := p0_unsigned_tx p in
  inputs <- extract_inputs 0 (tx_input t) (p0_inputs p) ;;
  _ <- interpreter_check0 p ;;
  Ok (Tx (tx_version t) (tx_lock_time t) inputs (tx_output t)).

End Finalize.
