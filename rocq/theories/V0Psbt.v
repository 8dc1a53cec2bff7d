(** Model of the struct, the codec, extraction and combining of src/v0/bitcoin
    (mod.rs, serialize.rs, map/global.rs). *)
From Coq Require Strings.Byte.
From Verif Require Import Base OMap Consensus Ext Raw TapTree Serialize MapCodec V2Global V2Psbt V2Roles
  V0Error V0Input V0Output.
Local Open Scope N_scope.

(** src/v0/bitcoin/mod.rs:43-62 [Psbt]. *)
Record psbt0 : Type := Psbt0 {
  p0_unsigned_tx : tx;  (* 45 *)
  p0_version : N;  (* 47 *)
  p0_xpub : list (xpub * keysource);  (* 50 *)
  p0_proprietary : list (propkey * bytes);  (* 53 *)
  p0_unknown : list (key * bytes);  (* 56 *)
  p0_inputs : list input0;  (* 59 *)
  p0_outputs : list output0  (* 61 *)
}.

(** Field assignments (Rust's field update, src/v0/bitcoin/mod.rs:43-62). *)
(** src/v0/bitcoin/mod.rs:59, assignment to the field. *)
Definition set_p0_inputs (l : list input0) (p : psbt0) : psbt0 :=
  Psbt0 (p0_unsigned_tx p) (p0_version p) (p0_xpub p) (p0_proprietary p) (p0_unknown p) l (p0_outputs p).
(** src/v0/bitcoin/mod.rs:61, assignment to the field. *)
Definition set_p0_outputs (l : list output0) (p : psbt0) : psbt0 :=
  Psbt0 (p0_unsigned_tx p) (p0_version p) (p0_xpub p) (p0_proprietary p) (p0_unknown p) (p0_inputs p) l.

(** src/v0/bitcoin/map/global.rs:88-92, the local variables of [decode_global]. *)
Record gdec0 : Type := GDec0 {
  gd0_tx : option tx;  (* 88 *)
  gd0_version : option N;  (* 89 *)
  gd0_unknown : list (key * bytes);  (* 90 *)
  gd0_xpub : list (xpub * keysource);  (* 91 *)
  gd0_proprietary : list (propkey * bytes)  (* 92 *)
}.
(** src/v0/bitcoin/map/global.rs:88, assignment to the variable. *)
Definition set_gd0_tx v (d : gdec0) : gdec0 :=
  GDec0 v (gd0_version d) (gd0_unknown d) (gd0_xpub d) (gd0_proprietary d).
(** src/v0/bitcoin/map/global.rs:89, assignment to the variable. *)
Definition set_gd0_version v (d : gdec0) : gdec0 :=
  GDec0 (gd0_tx d) v (gd0_unknown d) (gd0_xpub d) (gd0_proprietary d).
(** src/v0/bitcoin/map/global.rs:90, assignment to the variable. *)
Definition set_gd0_unknown v (d : gdec0) : gdec0 :=
  GDec0 (gd0_tx d) (gd0_version d) v (gd0_xpub d) (gd0_proprietary d).
(** src/v0/bitcoin/map/global.rs:91, assignment to the variable. *)
Definition set_gd0_xpub v (d : gdec0) : gdec0 :=
  GDec0 (gd0_tx d) (gd0_version d) (gd0_unknown d) v (gd0_proprietary d).
(** src/v0/bitcoin/map/global.rs:92, assignment to the variable. *)
Definition set_gd0_proprietary v (d : gdec0) : gdec0 :=
  GDec0 (gd0_tx d) (gd0_version d) (gd0_unknown d) (gd0_xpub d) v.

(** src/v0/bitcoin/map/global.rs:87 [r.take(MAX_VEC_SIZE)]: what can be read, and what is
    behind it. *)
Definition split_limit (n : N) (bs : bytes) : bytes * bytes :=
  if blen bs <=? n then (bs, []) else (firstn (N.to_nat n) bs, skipn (N.to_nat n) bs).

(** src/v0/bitcoin/mod.rs:1046-1064 [ExtractTxError]. *)
Inductive extract0err : Type :=
| X0AbsurdFeeRate (fee_rate : N) (t : tx)
| X0MissingInputValue (t : tx)
| X0SendingTooMuch (p : psbt0).

(** [FeeRate::MAX] in sat/kwu (src/v0/bitcoin/mod.rs:201). *)
Definition FEE_RATE_MAX : N := U64 - 1.

Section Psbt0.
Context `{X : Ext}.

(** src/v0/bitcoin/map/global.rs:101-121: the transaction fields one by one, without
    looking for a witness marker. *)
Definition de_unsigned_tx (bs : bytes) : res serr tx :=
  '(version, r1) <- map_err SConsensusEncoding (dec_u32 bs) ;;
  '(input, r2) <- map_err SConsensusEncoding (dec_vec dec_txin r1) ;;
  '(output, r3) <- map_err SConsensusEncoding (dec_vec dec_txout r2) ;;
  '(lock_time, r4) <- map_err SConsensusEncoding (dec_u32 r3) ;;
  _ <- fail_if (negb (is_empty r4)) SPartialDataConsumption ;;
  Ok (Tx version lock_time input output).

(** src/v0/bitcoin/map/global.rs:98-129 PSBT_GLOBAL_UNSIGNED_TX. *)
Definition g0ins_tx (p : pair) (cur : option tx) : res ierr (option tx) :=
  if is_empty (k_data (p_key p)) then
    if is_none cur then
      t <- map_err IDeser (de_unsigned_tx (p_value p)) ;;
      Ok (Some t)
    else Err (IDuplicateKey (p_key p))
  else Err (IInvalidKeyDataNotEmpty (p_key p)).

(** src/v0/bitcoin/map/global.rs:130-166 PSBT_GLOBAL_XPUB. *)
Definition g0ins_xpub (p : pair) (m : list (xpub * keysource)) : res ierr (list (xpub * keysource)) :=
  if negb (is_empty (k_data (p_key p))) then
    x <- ok_or (de_xpub (k_data (p_key p))) (IXPubKey0 0) ;;
    let v := p_value p in
    _ <- fail_if (is_empty v || negb (blen v mod 4 =? 0)) (IXPubKey0 1) ;;
    _ <- fail_if (blen v <? 4) (IXPubKey0 2) ;;
    let ks := KeySource (firstn 4 v) (read_u32s (length v) (skipn 4 v)) in
    match m_get sk_xpub x m with
    | Some _ => Err (IXPubKey0 3)
    | None => Ok (m_put sk_xpub x ks m)
    end
  else Err (IXPubKey0 4).

(** src/v0/bitcoin/map/global.rs:167-195 PSBT_GLOBAL_VERSION. *)
Definition g0ins_version (p : pair) (cur : option N) : res ierr (option N) :=
  if is_empty (k_data (p_key p)) then
    if is_none cur then
      _ <- fail_if (negb (blen (p_value p) =? 4)) (IVersion0 0) ;;
      '(v, _) <- map_err IConsensus (dec_u32 (p_value p)) ;;
      _ <- fail_if (negb (v =? 0)) (IVersion0 1) ;;
      Ok (Some v)
    else Err (IDuplicateKey (p_key p))
  else Err (IInvalidKeyDataNotEmpty (p_key p)).

(** src/v0/bitcoin/map/global.rs:205-209: the key types of version 2. *)
Definition global0_excluded (t : byte) : bool :=
  beq t x02 || beq t x06 || beq t x03 || beq t x04 || beq t x05.

(** src/v0/bitcoin/map/global.rs:97-221, the [match] on the key type. *)
Definition global0_insert_pair (p : pair) (d : gdec0) : res ierr gdec0 :=
  let t := k_type (p_key p) in
  if beq t x00 then v <- g0ins_tx p (gd0_tx d) ;; Ok (set_gd0_tx v d)
  else if beq t x01 then v <- g0ins_xpub p (gd0_xpub d) ;; Ok (set_gd0_xpub v d)
  else if beq t xfb then v <- g0ins_version p (gd0_version d) ;; Ok (set_gd0_version v d)
  else if beq t xfc then v <- ins_prop IDeser p (gd0_proprietary d) ;; Ok (set_gd0_proprietary v d)
  else if global0_excluded t then Err (IExcludedKey t)
  else v <- ins_unknown p (gd0_unknown d) ;; Ok (set_gd0_unknown v d).

(** src/v0/bitcoin/map/global.rs:88-92: initial values. *)
Definition gdec0_init : gdec0 := GDec0 None None [] [] [].

(** src/v0/bitcoin/map/global.rs:86-242 [Psbt::decode_global]. *)
Definition global0_decode : reader err0 psbt0 :=
  fun bs =>
    let '(lim, behind) := split_limit MAX_VEC_SIZE bs in
    '(d, r) <- dec_map (fun p d => map_err err0_of_ierr (global0_insert_pair p d)) err0_of_serr
                     (S (length lim)) gdec0_init lim ;;
    t <- ok_or (gd0_tx d) E0MustHaveUnsignedTx ;;
    Ok (Psbt0 t (opt_default 0 (gd0_version d)) (gd0_xpub d) (gd0_proprietary d) (gd0_unknown d) [] [],
        r ++ behind).

(** src/v0/bitcoin/map/global.rs:36-82 [Map::get_pairs] for [Psbt].  The transaction is
    written field by field, the witnesses are left out. *)
Definition global0_pairs (p : psbt0) : list pair :=
  [Pair (Key x00 []) (enc_tx_nowit (p0_unsigned_tx p))]
  ++ map_pairs x01 ser_xpub ser_keysource (p0_xpub p)
  ++ (if 0 <? p0_version p then [Pair (Key xfb []) (le_enc 4 (p0_version p))] else [])
  ++ prop_pairs (p0_proprietary p)
  ++ unknown_pairs (p0_unknown p).

(** src/v0/bitcoin/macros.rs:58-77 [impl_psbtmap_decoding] for [Input]. *)
Definition input0_decode : reader err0 input0 :=
  fun bs => dec_map (fun p s => map_err err0_of_ierr (input0_insert_pair p s)) err0_of_serr
                    (S (length bs)) input0_default bs.
(** src/v0/bitcoin/macros.rs:58-77 [impl_psbtmap_decoding] for [Output]. *)
Definition output0_decode : reader err0 output0 :=
  fun bs => dec_map (fun p s => map_err err0_of_ierr (output0_insert_pair p s)) err0_of_serr
                    (S (length bs)) output0_default bs.

(** src/v0/bitcoin/serialize.rs:48-68 [Psbt::serialize], with src/v0/bitcoin/map/mod.rs
    [Map::serialize_map]. *)
Definition psbt0_serialize (p : psbt0) : bytes :=
  MAGIC_BYTES ++ [PSBT_SEPARATOR] ++ ser_pairs (global0_pairs p)
  ++ concat (map (fun i => ser_pairs (input0_pairs i)) (p0_inputs p))
  ++ concat (map (fun o => ser_pairs (output0_pairs o)) (p0_outputs p)).

(** src/v0/bitcoin/mod.rs:92-104 [unsigned_tx_checks]. *)
Fixpoint unsigned_inputs_checks (l : list txin) : res err0 unit :=
  match l with
  | [] => Ok tt
  | i :: l' =>
      _ <- fail_if (negb (is_empty (ti_script_sig i))) E0UnsignedTxHasScriptSigs ;;
      _ <- fail_if (negb (is_empty (ti_witness i))) E0UnsignedTxHasScriptWitnesses ;;
      unsigned_inputs_checks l'
  end.
Definition unsigned_tx_checks (p : psbt0) : res err0 unit :=
  unsigned_inputs_checks (tx_input (p0_unsigned_tx p)).

(** src/v0/bitcoin/serialize.rs:70-112 [Psbt::deserialize].  The capacities of lines 89
    and 101 are the lengths of vectors that were read from at most [MAX_VALUE] bytes, so
    they do not overflow. *)
Definition psbt0_deserialize (bs : bytes) : res err0 psbt0 :=
  _ <- fail_if (negb (bytes_eqb (firstn 4 bs) MAGIC_BYTES)) E0InvalidMagic ;;
  _ <- fail_if (negb (bytes_eqb (firstn 1 (skipn 4 bs)) [PSBT_SEPARATOR])) E0InvalidSeparator ;;
  let d := skipn 5 bs in
  '(global, d1) <- global0_decode d ;;
  _ <- unsigned_tx_checks global ;;
  '(inputs, d2) <- dec_maps input0_decode E0Io (S (length d1)) (blen (tx_input (p0_unsigned_tx global))) d1 ;;
  '(outputs, _) <- dec_maps output0_decode E0Io (S (length d2)) (blen (tx_output (p0_unsigned_tx global))) d2 ;;
  Ok (set_p0_outputs outputs (set_p0_inputs inputs global)).

(** src/v0/bitcoin/mod.rs:111-124 [Psbt::from_unsigned_tx]. *)
Definition from_unsigned_tx (t : tx) : res err0 psbt0 :=
  let p := Psbt0 t 0 [] [] [] (repeat input0_default (length (tx_input t)))
             (repeat output0_default (length (tx_output t))) in
  _ <- unsigned_tx_checks p ;;
  Ok p.

(** src/v0/bitcoin/mod.rs:79-88: the closure of [iter_funding_utxos]. *)
Definition input0_funding_utxo (t : txin) (i : input0) : res err0 txout :=
  match i0_witness_utxo i, i0_non_witness_utxo i with
  | Some u, _ => Ok u
  | None, Some prev =>
      match nth_error (tx_output prev) (N.to_nat (ti_vout t)) with
      | Some u => Ok u
      | None => Err E0PsbtUtxoOutOfbounds
      end
  | None, None => Err E0MissingUtxo
  end.

(** src/v0/bitcoin/mod.rs:77-89 [Psbt::iter_funding_utxos]; the [assert_eq!] of line 78. *)
Definition iter_funding_utxos (p : psbt0) : res err0 (list (res err0 txout)) :=
  _ <- panic_unless (length (p0_inputs p) =? length (tx_input (p0_unsigned_tx p)))%nat ;;
  Ok (map (fun ti => input0_funding_utxo (fst ti) (snd ti)) (combine (tx_input (p0_unsigned_tx p)) (p0_inputs p))).

(** src/v0/bitcoin/mod.rs:715-725 [Psbt::fee]. *)
Definition psbt0_fee (p : psbt0) : res err0 N :=
  utxos <- iter_funding_utxos p ;;
  inputs <- checked_sum E0FeeOverflow 0 (map (fun r => u <- r ;; Ok (to_value u)) utxos) ;;
  outputs <- checked_sum E0FeeOverflow 0 (map (fun o => Ok (to_value o)) (tx_output (p0_unsigned_tx p))) ;;
  if outputs <=? inputs then Ok (inputs - outputs) else Err E0NegativeFee.

(** src/v0/bitcoin/mod.rs:180-183: the loop of [internal_extract_tx]; inputs of the
    transaction without a map stay as they are. *)
Fixpoint fill_inputs (l : list txin) (is : list input0) : list txin :=
  match l, is with
  | t :: l', i :: is' =>
      TxIn (ti_txid t) (ti_vout t) (opt_default [] (i0_final_script_sig i)) (ti_sequence t)
           (opt_default [] (i0_final_script_witness i)) :: fill_inputs l' is'
  | _, _ => l
  end.

(** src/v0/bitcoin/mod.rs:177-186 [internal_extract_tx] and 174 [extract_tx_unchecked_fee_rate]. *)
Definition extract0_unchecked (p : psbt0) : tx :=
  let t := p0_unsigned_tx p in
  Tx (tx_version t) (tx_lock_time t) (fill_inputs (tx_input t) (p0_inputs p)) (tx_output t).

(** src/v0/bitcoin/mod.rs:190-219 [internal_extract_tx_with_fee_rate_limit] and 161-166;
    [unreachable!()] in line 203. *)
Definition extract0_with_fee_rate_limit (max_fee_rate : N) (p : psbt0) : res extract0err tx :=
  match psbt0_fee p with
  | Ok fee =>
      let t := extract0_unchecked p in
      let fee_rate := saturating_mul fee 1000 / tx_weight t in
      if max_fee_rate <? fee_rate then Err (X0AbsurdFeeRate fee_rate t) else Ok t
  | Err E0MissingUtxo => Err (X0MissingInputValue (extract0_unchecked p))
  | Err E0NegativeFee => Err (X0SendingTooMuch p)
  | Err E0FeeOverflow => Err (X0AbsurdFeeRate FEE_RATE_MAX (extract0_unchecked p))
  | _ => Panic
  end.

(** src/v0/bitcoin/mod.rs:138-140 [extract_tx] and 150-152 [extract_tx_fee_rate_limit]. *)
Definition extract0_tx (p : psbt0) : res extract0err tx :=
  extract0_with_fee_rate_limit DEFAULT_MAX_FEE_RATE p.

(** Equality of transactions (derived [PartialEq], used in src/v0/bitcoin/mod.rs:225). *)
Definition tx_dec (a b : tx) : {a = b} + {a <> b}.
Proof.
  assert (B : forall x y : bytes, {x = y} + {x <> y}) by (apply list_eq_dec, Coq.Strings.Byte.byte_eq_dec).
  repeat (decide equality; try apply N.eq_dec).
Defined.

(** src/v0/bitcoin/mod.rs:240-273: one entry of the loop over [other.xpub].  As in
    [V2Global.global_merge_xpub] the start of the slice in line 263 underflows, and the
    slicing panics, when the path of [other] is the shorter one. *)
Definition merge_xpub0 (x : xpub) (ks1 : keysource) (m : list (xpub * keysource))
    : res err0 (list (xpub * keysource)) :=
  match m_get sk_xpub x m with
  | None => Ok (m_put sk_xpub x ks1 m)
  | Some ks2 =>
      let d1 := ks_path ks1 in
      let d2 := ks_path ks2 in
      if (path_eqb d1 d2 && bytes_eqb (ks_fp ks1) (ks_fp ks2))
         || ((length d1 <? length d2)%nat
             && path_eqb d1 (skipn (length d2 - length d1) d2))
      then Ok m
      else if (length d1 <? length d2)%nat then Panic
      else if path_eqb d2 (skipn (length d1 - length d2) d1)
      then Ok (m_put sk_xpub x ks1 m)
      else Err (E0CombineInconsistentKeySources x)
  end.
(** src/v0/bitcoin/mod.rs:239-273: the loop. *)
Fixpoint merge_xpubs0 (l m : list (xpub * keysource)) : res err0 (list (xpub * keysource)) :=
  match l with
  | [] => Ok m
  | (x, ks) :: l' =>
      m' <- merge_xpub0 x ks m ;;
      merge_xpubs0 l' m'
  end.

(** src/v0/bitcoin/mod.rs:278-284: [for (a, b) in self.iter_mut().zip(other) { a.combine(b) }]. *)
Fixpoint zip_combine {A} (f : A -> A -> A) (l l' : list A) : list A :=
  match l, l' with
  | a :: r, b :: r' => f a b :: zip_combine f r r'
  | _, _ => l
  end.

(** src/v0/bitcoin/mod.rs:224-287 [Psbt::combine].  When it fails Rust leaves the version
    and the xpubs merged so far in [self]; this function returns the error only,
    CombineMut.v has what is left. *)
Definition psbt0_combine (self other : psbt0) : res err0 psbt0 :=
  if tx_dec (p0_unsigned_tx self) (p0_unsigned_tx other) then
    xs <- merge_xpubs0 (p0_xpub other) (p0_xpub self) ;;
    Ok (Psbt0 (p0_unsigned_tx self) (N.max (p0_version self) (p0_version other)) xs
          (comb_map sk_propkey (p0_proprietary self) (p0_proprietary other))
          (comb_map sk_key (p0_unknown self) (p0_unknown other))
          (zip_combine input0_combine (p0_inputs self) (p0_inputs other))
          (zip_combine output0_combine (p0_outputs self) (p0_outputs other)))
  else Err (E0UnexpectedUnsignedTx (p0_unsigned_tx self) (p0_unsigned_tx other)).

End Psbt0.
