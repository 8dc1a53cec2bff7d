(** Model of the finalizer: src/v2/miniscript/finalize.rs, src/v2/miniscript/mod.rs and
    src/v2/miniscript/satisfy.rs.  Miniscript itself (parsing, satisfying, interpreting) is
    external (rust-miniscript 12) and enters through the class [MsExt]; its functions are taken
    not to panic.  Descriptors of a single key are satisfied here as rust-miniscript does.
    Error payloads of rust-miniscript are dropped, and so are the two [println!] of
    src/v2/miniscript/finalize.rs:129-130. *)
From Verif Require Import Base OMap Consensus Ext Raw TapTree Serialize MapCodec V2Global V2Input V2Output V2Psbt V2Roles Script SighashType V2Sign.
Local Open Scope N_scope.

(** ** Scripts *)

(** [Script::is_p2pk] of rust-bitcoin (src/v2/miniscript/finalize.rs:158). *)
Definition is_p2pk (s : bytes) : bool :=
  ((blen s =? 67) && beq (byte_at s 0) x41 && beq (byte_at s 66) xac)
  || ((blen s =? 35) && beq (byte_at s 0) x21 && beq (byte_at s 34) xac).
(** [Script::is_p2pkh] of rust-bitcoin (src/v2/miniscript/finalize.rs:165). *)
Definition is_p2pkh (s : bytes) : bool :=
  (blen s =? 25) && beq (byte_at s 0) x76 && beq (byte_at s 1) xa9 && beq (byte_at s 2) x14
  && beq (byte_at s 23) x88 && beq (byte_at s 24) xac.
(** [script::Builder::push_slice] of rust-bitcoin, reached from rust-miniscript
    (src/v2/miniscript/finalize.rs:123). *)
Definition push_slice (b : bytes) : bytes :=
  if blen b <? 76 then n2b (blen b) :: b
  else if blen b <? 256 then x4c :: n2b (blen b) :: b
  else if blen b <? 65536 then x4d :: le_enc 2 (blen b) ++ b
  else x4e :: le_enc 4 (blen b) ++ b.

(** ** The satisfier, src/v2/miniscript/satisfy.rs *)

(** [relative::LockTime]: a number of blocks or of 512 second intervals
    (src/v2/miniscript/satisfy.rs:88). *)
Inductive rellock : Type := RBlocks (n : N) | RTime (n : N).
(** [relative::LockTime::from_sequence] (src/v2/miniscript/satisfy.rs:90): bit 31 disables,
    bit 22 selects the unit, the low 16 bits are the value. *)
Definition rel_from_sequence (s : N) : option rellock :=
  if N.testbit s 31 then None
  else if N.testbit s 22 then Some (RTime (s mod 65536)) else Some (RBlocks (s mod 65536)).
(** [relative::LockTime::is_implied_by] (src/v2/miniscript/satisfy.rs:92). *)
Definition rel_implied_by (n other : rellock) : bool :=
  match n, other with
  | RBlocks a, RBlocks b => a <=? b
  | RTime a, RTime b => a <=? b
  | _, _ => false
  end.

(** [miniscript::Satisfier] as a record of its methods (src/v2/miniscript/satisfy.rs:21-117);
    keys of type [Pk] are passed after their conversion. *)
Record satisfier := Satisfier {
  sat_tap_key : option tsig;
  sat_tap_leaf : bytes -> bytes -> option tsig;
  sat_pkh_pk : bytes -> option pubkey;
  sat_pkh_tap : bytes -> bytes -> option (bytes * tsig);
  sat_ecdsa : pubkey -> option esig;
  sat_pkh_ecdsa : bytes -> option (pubkey * esig);
  sat_after : N -> bool;
  sat_older : rellock -> bool;
  sat_hash160 : bytes -> option bytes;
  sat_sha256 : bytes -> option bytes;
  sat_hash256 : bytes -> option bytes;
  sat_ripemd160 : bytes -> option bytes
}.

(** The fragments of [Miniscript::parse_with_ext] (src/v2/miniscript/finalize.rs:210, 237, 270,
    289, 339). *)
Inductive msctx : Type := CSegwitv0 | CLegacy | CBare | CTap.
(** What the interpreter reports for an input (src/v2/miniscript/mod.rs:96-103): success, an
    error of [Interpreter::from_txdata], or a first satisfaction error. *)
Inductive interp : Type := IOk | IConstructor | ISatisfaction.

Class MsExt := {
  (** [miniscript::Miniscript]. *)
  ms : Type;
  (** [Miniscript::parse_with_ext] (src/v2/miniscript/finalize.rs:210, 237, 270, 289, 339). *)
  ms_parse : msctx -> bytes -> option ms;
  (** [Miniscript::substitute_raw_pkh] (src/v2/miniscript/finalize.rs:214, 241, 293), and
      (343) for x-only keys. *)
  ms_substitute : list (bytes * pubkey) -> ms -> ms;
  ms_substitute_tap : list (bytes * bytes) -> ms -> ms;
  (** [Miniscript::encode] (src/v2/miniscript/finalize.rs:357). *)
  ms_encode : ms -> bytes;
  (** [Descriptor::new_wsh], [new_sh_wsh], [new_sh] and [new_bare] succeed
      (src/v2/miniscript/finalize.rs:214, 241, 274, 293). *)
  ms_top_level : msctx -> ms -> bool;
  (** [Miniscript::satisfy_malleable] (src/v2/miniscript/finalize.rs:347, and from 123). *)
  ms_satisfy : msctx -> ms -> satisfier -> option (list bytes);
  (** [miniscript::util::witness_to_scriptsig] (from src/v2/miniscript/finalize.rs:123). *)
  ms_script_sig : list bytes -> bytes;
  (** [Interpreter::from_txdata] and [Interpreter::iter] (src/v2/miniscript/mod.rs:96-99): script
      pubkey, script sig, witness, sequence, lock time, transaction, input index, spent outputs. *)
  ms_interpret : bytes -> bytes -> witness -> N -> N -> tx -> N -> list txout -> interp
}.

(** src/v2/miniscript/finalize.rs:509-569 [InputError], the errors that are returned. *)
Inductive inputerr : Type :=
| IEKey
| IECouldNotSatisfyTr
| IEInvalidRedeemScript (redeem expected : bytes)
| IEInvalidWitnessScript (script expected : bytes)
| IEMiniscript
| IEMissingRedeemScript
| IEMissingPubkey
| IEMissingWitnessScript
| IENonEmptyWitnessScript
| IENonEmptyRedeemScript.
(** src/v2/miniscript/finalize.rs:469-474 [FinalizeInputError]. *)
Inductive fininputerr : Type := FIFinal (e : inputerr) | FIInput (e : ifinerr).
(** src/v2/miniscript/mod.rs:187-202 [InterpreterCheckInputError]. *)
Inductive checkinputerr : Type := CIConstructor (index : N) | CISatisfaction (index : N).
(** src/v2/miniscript/mod.rs:147-152 [InterpreterCheckError]. *)
Inductive checkerr : Type := CEDetermineLockTime (e : dlterr) | CEInput (e : checkinputerr).
(** src/v2/miniscript/finalize.rs:427-437 [FinalizeError]. *)
Inductive finerr : Type := FEInput (index : N) (e : fininputerr) | FEInterpreter (e : checkerr).
(** src/v2/miniscript/finalize.rs:377-384 [Error]. *)
Inductive finnewerr : Type :=
| FNFundingUtxo (e : fundingerr)
| FNDetermineLockTime (e : dlterr)
| FNPartialSigs (e : psigerr).

Section Finalize.
Context `{X : Ext} `{C : Cfg} `{M : MsExt}.

(** [Script::to_p2wsh] and [Script::to_p2sh] (src/v2/miniscript/finalize.rs:204, 222, 231). *)
Definition to_p2wsh (s : bytes) : bytes := [x00; x20] ++ sha256 s.
Definition to_p2sh (s : bytes) : bytes := [xa9; x14] ++ hash160 s ++ [x87].
(** [PublicKey::pubkey_hash] (src/v2/miniscript/finalize.rs:150). *)
Definition pubkey_hash (k : pubkey) : bytes := hash160 (ser_pubkey k).
(** [Address::p2pkh(..).script_pubkey()] (src/v2/miniscript/finalize.rs:174-175). *)
Definition p2pkh_of (k : pubkey) : bytes := [x76; xa9; x14] ++ pubkey_hash k ++ [x88; xac].
(** [Address::p2wpkh(..).script_pubkey()] (src/v2/miniscript/finalize.rs:188-189, 251-255). *)
Definition p2wpkh_of (k : pubkey) : bytes := [x00; x14] ++ pubkey_hash k.

(** src/v2/miniscript/satisfy.rs:71-85 [check_after]. *)
Definition check_after (i : input) (n : N) : bool :=
  match (if n <? LOCK_TIME_THRESHOLD then in_min_height i else in_min_time i) with
  | Some lock_time => n <=? lock_time
  | None => false
  end.
(** src/v2/miniscript/satisfy.rs:88-96 [check_older]. *)
Definition check_older (i : input) (n : rellock) : bool :=
  match in_sequence i with
  | Some seq =>
      match rel_from_sequence seq with
      | None => false
      | Some lock_time => rel_implied_by n lock_time
      end
  | None => false
  end.
(** src/v2/miniscript/satisfy.rs:119-127, src/v0/miniscript/mod.rs:368-376 [try_vec_as_preimage32]. *)
Definition try_preimage32 (v : bytes) : option bytes := if blen v =? 32 then Some v else None.
(** [.get(..).and_then(try_vec_as_preimage32)] (src/v2/miniscript/satisfy.rs:98-116). *)
Definition lookup_preimage (m : list (bytes * bytes)) (h : bytes) : option bytes :=
  match m_get bkey h m with Some v => try_preimage32 v | None => None end.
(** src/v2/miniscript/satisfy.rs:21-117 [InputSatisfier]. *)
Definition input_satisfier (i : input) : satisfier := {|
  (* 22 *)
  sat_tap_key := in_tap_key_sig i;
  (* 24-26 *)
  sat_tap_leaf := fun pk lh => m_get sk_xleaf (pk, lh) (in_tap_script_sigs i);
  (* 28-34 *)
  sat_pkh_pk := fun h =>
    option_map (fun e : bytes * keysource => PubKey true (fst e))
      (find (fun e => bytes_eqb (pubkey_hash (PubKey true (fst e))) h) (in_bip32_derivations i));
  (* 42-53 *)
  sat_pkh_tap := fun h lh =>
    option_map (fun e : xleaf * tsig => (fst (fst e), snd e))
      (find (fun e => bytes_eqb (hash160 (fst (fst e))) h && bytes_eqb (snd (fst e)) lh) (in_tap_script_sigs i));
  (* 55-57 *)
  sat_ecdsa := fun pk => m_get sk_pubkey pk (in_partial_sigs i);
  (* 59-68 *)
  sat_pkh_ecdsa := fun h => find (fun e => bytes_eqb (pubkey_hash (fst e)) h) (in_partial_sigs i);
  sat_after := check_after i;
  sat_older := check_older i;
  (* 98-116 *)
  sat_hash160 := lookup_preimage (in_hash160_preimages i);
  sat_sha256 := lookup_preimage (in_sha256_preimages i);
  sat_hash256 := lookup_preimage (in_hash256_preimages i);
  sat_ripemd160 := lookup_preimage (in_ripemd160_preimages i)
|}.

(** ** Descriptors *)

(** [miniscript::Descriptor], the shapes built at src/v2/miniscript/finalize.rs:162, 178, 195,
    214, 241, 261, 274, 293. *)
Inductive desc : Type :=
| DPk (k : pubkey) | DPkh (k : pubkey) | DWpkh (k : pubkey) | DShWpkh (k : pubkey)
| DWsh (m : ms) | DShWsh (m : ms) | DSh (m : ms) | DBare (m : ms).

(** src/v2/miniscript/finalize.rs:141-153: the compressed keys of all inputs by their hash. *)
Definition known_keys (inputs : list input) : list (bytes * pubkey) :=
  fold_left (fun acc i =>
    fold_left (fun acc e => m_put bkey (pubkey_hash (PubKey true (fst e))) (PubKey true (fst e)) acc)
      (in_bip32_derivations i) acc) inputs [].

(** [Descriptor::new_wsh(..)?] and the like (src/v2/miniscript/finalize.rs:214, 241, 274, 293). *)
Definition new_desc (c : msctx) (mk : ms -> desc) (m : ms) : res inputerr desc :=
  if ms_top_level c m then Ok (mk m) else Err IEMiniscript.

(** The search of src/v2/miniscript/finalize.rs:183-193 and 247-259. *)
Definition find_wpkh (i : input) (script : bytes) : option (pubkey * esig) :=
  find (fun e => pub_compressed (fst e) && bytes_eqb script (p2wpkh_of (fst e))) (in_partial_sigs i).

(** src/v2/miniscript/finalize.rs:140-295 [Finalizer::get_descriptor].  [Descriptor::new_pkh],
    [new_wpkh] and [new_sh_wpkh] fail on x-only keys and, the last two, on uncompressed keys; they
    are called on compressed keys or, the first, on any key. *)
Definition get_descriptor (inputs : list input) (i : input) : res inputerr desc :=
  let map := known_keys inputs in
  u <- expect_ok (input_funding_utxo i) ;;
  let spk := to_script u in
  if is_p2pk spk then
    match de_pubkey (removelast (tl spk)) with
    | Ok pk => Ok (DPk pk)
    | _ => Err IEKey
    end
  else if is_p2pkh spk then
    match find (fun e : pubkey * esig => bytes_eqb spk (p2pkh_of (fst e))) (in_partial_sigs i) with
    | Some (pk, _) => Ok (DPkh pk)
    | None => Err IEMissingPubkey
    end
  else if is_p2wpkh spk then
    match find_wpkh i spk with
    | Some (pk, _) => Ok (DWpkh pk)
    | None => Err IEMissingPubkey
    end
  else if is_p2wsh spk then
    if is_some (in_redeem_script i) then Err IENonEmptyRedeemScript
    else
      match in_witness_script i with
      | Some ws =>
          if negb (bytes_eqb (to_p2wsh ws) spk) then Err (IEInvalidWitnessScript ws spk)
          else
            m <- ok_or (ms_parse CSegwitv0 ws) IEMiniscript ;;
            new_desc CSegwitv0 DWsh (ms_substitute map m)
      | None => Err IEMissingWitnessScript
      end
  else if is_p2sh spk then
    match in_redeem_script i with
    | None => Err IEMissingRedeemScript
    | Some rs =>
        if negb (bytes_eqb (to_p2sh rs) spk) then Err (IEInvalidRedeemScript rs spk)
        else if is_p2wsh rs then
          match in_witness_script i with
          | Some ws =>
              if negb (bytes_eqb (to_p2wsh ws) rs) then Err (IEInvalidWitnessScript ws rs)
              else
                m <- ok_or (ms_parse CSegwitv0 ws) IEMiniscript ;;
                new_desc CSegwitv0 DShWsh (ms_substitute map m)
          | None => Err IEMissingWitnessScript
          end
        else if is_p2wpkh rs then
          match find_wpkh i rs with
          | Some (pk, _) => Ok (DShWpkh pk)
          | None => Err IEMissingPubkey
          end
        else if is_some (in_witness_script i) then Err IENonEmptyWitnessScript
        else
          m <- ok_or (ms_parse CLegacy rs) IEMiniscript ;;
          new_desc CLegacy DSh m
    end
  else if is_some (in_witness_script i) then Err IENonEmptyWitnessScript
  else if is_some (in_redeem_script i) then Err IENonEmptyRedeemScript
  else
    m <- ok_or (ms_parse CBare spk) IEMiniscript ;;
    new_desc CBare DBare (ms_substitute map m).

(** [Descriptor::get_satisfaction_mall] of rust-miniscript
    (src/v2/miniscript/finalize.rs:123): witness and script sig. *)
Definition desc_satisfaction (d : desc) (s : satisfier) : option (witness * bytes) :=
  match d with
  | DPk k => option_map (fun sg => ([], ms_script_sig [ser_esig sg])) (sat_ecdsa s k)
  | DPkh k => option_map (fun sg => ([], push_slice (ser_esig sg) ++ push_slice (ser_pubkey k))) (sat_ecdsa s k)
  | DWpkh k => option_map (fun sg => ([ser_esig sg; ser_pubkey k], [])) (sat_ecdsa s k)
  | DShWpkh k => option_map (fun sg => ([ser_esig sg; ser_pubkey k], push_slice (p2wpkh_of k))) (sat_ecdsa s k)
  | DWsh m => option_map (fun w => (w ++ [ms_encode m], [])) (ms_satisfy CSegwitv0 m s)
  | DShWsh m => option_map (fun w => (w ++ [ms_encode m], push_slice (to_p2wsh (ms_encode m)))) (ms_satisfy CSegwitv0 m s)
  | DSh m => option_map (fun w => ([], ms_script_sig (w ++ [ms_encode m]))) (ms_satisfy CLegacy m s)
  | DBare m => option_map (fun w => ([], ms_script_sig w)) (ms_satisfy CBare m s)
  end.

(** ** Taproot *)

(** src/v2/miniscript/mod.rs:133-143 [witness_size], [varint_len]. *)
Definition witness_size (w : witness) : N :=
  fold_left (fun acc item => acc + blen item) w 0 + varint_size (blen w).

(** One iteration of src/v2/miniscript/finalize.rs:334-367 up to line 358: the witness of a leaf,
    if there is one. *)
Definition leaf_witness (keys : list (bytes * bytes)) (s : satisfier) (leaf : controlblock * leafscript) : option witness :=
  let '(cb, (script, ver)) := leaf in
  if negb (ver =? 192) then None
  else
    match ms_parse CTap script with
    | None => None
    | Some m =>
        let m := ms_substitute_tap keys m in
        match ms_satisfy CTap m s with
        | None => None
        | Some wit => Some (wit ++ [ms_encode m; ser_controlblock cb])
        end
    end.

(** src/v2/miniscript/finalize.rs:330-368, the loop: the smallest witness so far. *)
Fixpoint tap_loop (keys : list (bytes * bytes)) (s : satisfier) (l : list (controlblock * leafscript))
    (min_wit : option witness) : option witness :=
  match l with
  | [] => min_wit
  | leaf :: l' =>
      tap_loop keys s l'
        match leaf_witness keys s leaf with
        | None => min_wit
        | Some wit =>
            match min_wit with
            | Some best => if witness_size best <? witness_size wit then min_wit else Some wit
            | None => Some wit
            end
        end
  end.

(** src/v2/miniscript/finalize.rs:307-322: the keys of the input by their hash. *)
Definition tap_key_map (i : input) : list (bytes * bytes) :=
  fold_left (fun acc e => m_put bkey (hash160 (fst e)) (fst e) acc) (in_tap_key_origins i) [].

(** src/v2/miniscript/finalize.rs:301-373 [construct_tap_witness]; [min_wit_len] is the size of
    [min_wit]. *)
Definition construct_tap_witness (spk : bytes) (i : input) : res inputerr witness :=
  _ <- panic_unless (is_p2tr spk) ;;
  match in_tap_key_sig i with
  | Some sig => Ok [ser_tsig sig]
  | None => ok_or (tap_loop (tap_key_map i) (input_satisfier i) (in_tap_scripts i) None) IECouldNotSatisfyTr
  end.

(** ** The finalizer *)

(** src/v2/miniscript/finalize.rs:101-132 [Finalizer::final_script_sig_and_witness]: script sig
    and witness. *)
Definition final_script_sig_and_witness (inputs : list input) (i : input) : res inputerr (bytes * witness) :=
  u <- expect_ok (input_funding_utxo i) ;;
  if is_p2tr (to_script u) then
    w <- construct_tap_witness (to_script u) i ;;
    Ok ([], w)
  else
    d <- get_descriptor inputs i ;;
    '(w, ss) <- ok_or (desc_satisfaction d (input_satisfier i)) IEMiniscript ;;
    Ok (ss, w).

(** src/v2/miniscript/finalize.rs:75-80 [Finalizer::finalize_input]. *)
Definition finalize_input (inputs : list input) (i : input) : res fininputerr input :=
  '(ss, w) <- map_err FIFinal (final_script_sig_and_witness inputs i) ;;
  map_err FIInput (input_finalize i ss w).

(** src/v2/miniscript/mod.rs:77-106 [Psbt::interpreter_check_input]. *)
Definition interpreter_check_input (t : tx) (index : N) (i : input) (utxos : list txout)
    (w : witness) (ss : bytes) : res checkinputerr unit :=
  u <- expect_ok (input_funding_utxo i) ;;
  match ms_interpret (to_script u) ss w (opt_default SEQ_MAX (in_sequence i)) (input_lock_time i) t index utxos with
  | IOk => Ok tt
  | IConstructor => Err (CIConstructor index)
  | ISatisfaction => Err (CISatisfaction index)
  end.

(** src/v2/miniscript/mod.rs:61-71, the loop. *)
Fixpoint interpreter_check_inputs (t : tx) (utxos : list txout) (index : N) (l : list input) : res checkinputerr unit :=
  match l with
  | [] => Ok tt
  | i :: l' =>
      w <- expect (in_final_script_witness i) ;;
      ss <- expect (in_final_script_sig i) ;;
      _ <- interpreter_check_input t index i utxos w ss ;;
      interpreter_check_inputs t utxos (index + 1) l'
  end.

(** src/v2/miniscript/mod.rs:56-59: the funding utxos, or a panic. *)
Fixpoint all_utxos {E} (l : list input) : res E (list txout) :=
  match l with
  | [] => Ok []
  | i :: l' =>
      u <- expect_ok (input_funding_utxo i) ;;
      us <- all_utxos l' ;;
      Ok (u :: us)
  end.

(** src/v2/miniscript/mod.rs:48-73 [Psbt::interpreter_check]. *)
Definition interpreter_check (p : psbt) : res checkerr unit :=
  _ <- panic_unless (negb debug_assertions || psbt_is_finalized p) ;;
  t <- map_err CEDetermineLockTime (unsigned_tx p) ;;
  utxos <- all_utxos (p_inputs p) ;;
  map_err CEInput (interpreter_check_inputs t utxos 0 (p_inputs p)).

(** src/v2/miniscript/finalize.rs:38-40: every input has a funding utxo. *)
Fixpoint all_funded (l : list input) : res fundingerr unit :=
  match l with
  | [] => Ok tt
  | i :: l' => _ <- input_funding_utxo i ;; all_funded l'
  end.

(** src/v2/miniscript/finalize.rs:35-44 [Finalizer::new]. *)
Definition finalizer_new (p : psbt) : res finnewerr psbt :=
  _ <- map_err FNFundingUtxo (all_funded (p_inputs p)) ;;
  _ <- map_err FNDetermineLockTime (determine_lock_time p) ;;
  _ <- map_err FNPartialSigs (check_partial_sigs_sighash_type p) ;;
  Ok p.

(** src/v2/miniscript/finalize.rs:47-49 [Finalizer::id]. *)
Definition finalizer_id {E} (p : psbt) : res E bytes := expect_ok (psbt_id p).

(** src/v2/miniscript/finalize.rs:58-65, the loop over the inputs [l] of a finalizer whose inputs
    are [inputs]. *)
Fixpoint finalize_inputs (inputs : list input) (index : N) (l : list input) : res finerr (list input) :=
  match l with
  | [] => Ok []
  | i :: l' =>
      i' <- map_err (FEInput index) (finalize_input inputs i) ;;
      r <- finalize_inputs inputs (index + 1) l' ;;
      Ok (i' :: r)
  end.

(** src/v2/miniscript/finalize.rs:57-72 [Finalizer::finalize]. *)
Definition finalizer_finalize (p : psbt) : res finerr psbt :=
  inputs <- finalize_inputs (p_inputs p) 0 (p_inputs p) ;;
  let finalized := Psbt (p_global p) inputs (p_outputs p) in
  _ <- map_err FEInterpreter (interpreter_check finalized) ;;
  Ok finalized.

End Finalize.
