(** Model of src/v2/mod.rs (roles, lock time, id, combining, fee) and src/v2/extract.rs. *)
From Verif Require Import Base OMap Consensus Ext Raw TapTree Serialize MapCodec V2Global V2Input V2Output V2Psbt.
Local Open Scope N_scope.

(** src/v2/error.rs [DetermineLockTimeError], a unit struct. *)
Inductive dlterr : Type := DetermineLockTimeError.

(** src/v2/error.rs [IndexOutOfBoundsError]. *)
Inductive ierridx : Type :=
| IdxInputs (index length : N)
| IdxCount (index count : N).

(** src/v2/error.rs [InputsNotModifiableError], [OutputsNotModifiableError] and the enum
    [PsbtNotModifiableError] of the two. *)
Inductive moderr : Type := InputsNotModifiable | OutputsNotModifiable.

(** src/v2/mod.rs:1319-1326 [CombineError]. *)
Inductive comberr : Type :=
| CombGlobal (e : gcerr)
| CombInput (e : icerr)
| CombOutput (e : ocerr).

(** src/error.rs:25-36 [FeeError]. *)
Inductive feeerr : Type :=
| FeeFundingUtxo (e : fundingerr)
| FeeInputOverflow
| FeeOutputOverflow
| FeeNegative.

(** src/v2/extract.rs:131-136 [ExtractError]. *)
Inductive extracterr : Type :=
| ExPsbtNotFinalized
| ExDetermineLockTime (e : dlterr).
(** src/v2/extract.rs:218-223 [ExtractTxError]. *)
Inductive extracttxerr : Type :=
| ETUnfinalized
| ETDetermineLockTime (e : dlterr).
(** src/v2/extract.rs:169-181 [ExtractTxFeeRateError]. *)
Inductive extractfeeerr : Type :=
| EFFee (e : feeerr)
| EFFeeTooHigh (fee max : N)
| EFExtractTx (e : extracttxerr).

(** The markers [Modifiable], [InputsOnlyModifiable], [OutputsOnlyModifiable] of
    src/v2/mod.rs:233-237. *)
Inductive ckind : Type := KModifiable | KInputsOnly | KOutputsOnly.

(** [Ord] of [Option<Height>] and [Option<Time>]: [None] is the smallest. *)
Definition opt_max (a b : option N) : option N :=
  match a, b with
  | None, _ => b
  | _, None => a
  | Some x, Some y => Some (N.max x y)
  end.
(** [Iterator::max] over options (src/v2/mod.rs:557-561 and 566-570); [None] for an
    empty iterator. *)
Definition iter_max (l : list (option N)) : option (option N) :=
  match l with
  | [] => None
  | a :: r => Some (fold_left opt_max r a)
  end.

(** [u64::checked_add] folded over a list (src/v2/mod.rs:955-964). *)
Fixpoint checked_sum {E} (overflow : E) (acc : N) (l : list (res E N)) : res E N :=
  match l with
  | [] => Ok acc
  | r :: l' =>
      v <- r ;;
      if acc + v <? U64 then checked_sum overflow (acc + v) l' else Err overflow
  end.

Section Roles.
Context `{X : Ext} `{C : Cfg}.

(** ** Lock time, unsigned transaction, id *)

(** src/v2/mod.rs:538-583 [Psbt::determine_lock_time].  A lock time is its consensus
    number: heights are below 500000000, times are not. *)
Definition determine_lock_time (p : psbt) : res dlterr N :=
  let require_time := existsb input_requires_time (p_inputs p) in
  let require_height := existsb input_requires_height (p_inputs p) in
  if require_time && require_height then Err DetermineLockTimeError
  else if existsb input_has_lock_time (p_inputs p) then
    if forallb input_satisfied_height (p_inputs p) then
      m <- expect (iter_max (map in_min_height (p_inputs p))) ;;
      expect m
    else
      m <- expect (iter_max (map in_min_time (p_inputs p))) ;;
      expect m
  else Ok (opt_default 0 (g_fallback_lock_time (p_global p))).

(** src/v2/mod.rs:524-533 [Psbt::unsigned_tx]. *)
Definition unsigned_tx (p : psbt) : res dlterr tx :=
  lock_time <- determine_lock_time p ;;
  Ok (Tx (g_tx_version (p_global p)) lock_time (map input_unsigned_tx_in (p_inputs p))
         (map output_tx_out (p_outputs p))).

(** [Transaction::compute_txid] of rust-bitcoin: double SHA-256 of the serialization
    without witnesses. *)
Definition compute_txid (t : tx) : bytes := sha256d (enc_tx_nowit t).

(** src/v2/mod.rs:515: all sequences set to zero. *)
Definition zero_sequences (t : tx) : tx :=
  Tx (tx_version t) (tx_lock_time t)
     (map (fun i => TxIn (ti_txid i) (ti_vout i) (ti_script_sig i) SEQ_ZERO (ti_witness i)) (tx_input t))
     (tx_output t).

(** src/v2/mod.rs:512-518 [Psbt::id]. *)
Definition psbt_id (p : psbt) : res dlterr bytes :=
  t <- unsigned_tx p ;;
  Ok (compute_txid (zero_sequences t)).

(** [.expect(..)] on a [Result]: panics on [Err]. *)
Definition expect_ok {E F A} (r : res E A) : res F A :=
  match r with Ok a => Ok a | _ => Panic end.

(** ** Creator, src/v2/mod.rs:97-226 *)

(** 99-106. *)
Definition creator_new : psbt := Psbt global_new [] [].
Definition on_global (f : global -> global) (p : psbt) : psbt := set_p_global (f (p_global p)) p.
(** src/v2/mod.rs:109-112. *)
Definition creator_fallback_lock_time (n : N) (p : psbt) : psbt := on_global (set_g_fallback_lock_time (Some n)) p.
(** src/v2/mod.rs:115-118. *)
Definition creator_sighash_single (p : psbt) : psbt := on_global set_sighash_single_flag p.
(** src/v2/mod.rs:121-124. *)
Definition creator_inputs_modifiable (p : psbt) : psbt := on_global set_inputs_modifiable_flag p.
(** src/v2/mod.rs:127-130. *)
Definition creator_outputs_modifiable (p : psbt) : psbt := on_global set_outputs_modifiable_flag p.
(** src/v2/mod.rs:137-140. *)
Definition creator_transaction_version (v : N) (p : psbt) : psbt := on_global (set_g_tx_version v) p.
(** src/v2/mod.rs:162-167, 188-193 and 214-219 [constructor_*modifiable]. *)
Definition creator_constructor (k : ckind) (p : psbt) : psbt :=
  match k with
  | KModifiable => on_global (fun g => set_outputs_modifiable_flag (set_inputs_modifiable_flag g)) p
  | KInputsOnly => on_global (fun g => clear_outputs_modifiable_flag (set_inputs_modifiable_flag g)) p
  | KOutputsOnly => on_global (fun g => set_outputs_modifiable_flag (clear_inputs_modifiable_flag g)) p
  end.
(** src/v2/mod.rs:225. *)
Definition creator_psbt (p : psbt) : psbt := p.
(** src/v2/mod.rs:320-322, 347-349, 374-376 [Default for Constructor<_>]. *)
Definition constructor_default (k : ckind) : psbt := creator_constructor k creator_new.

(** ** Constructor, src/v2/mod.rs:260-376 *)

(** src/v2/mod.rs:295-303, 330-336, 357-363 [Constructor::<_>::new]. *)
Definition constructor_new (k : ckind) (p : psbt) : res moderr psbt :=
  match k with
  | KModifiable =>
      if negb (is_inputs_modifiable (p_global p)) then Err InputsNotModifiable
      else if negb (is_outputs_modifiable (p_global p)) then Err OutputsNotModifiable
      else Ok p
  | KInputsOnly => if is_inputs_modifiable (p_global p) then Ok p else Err InputsNotModifiable
  | KOutputsOnly => if is_outputs_modifiable (p_global p) then Ok p else Err OutputsNotModifiable
  end.

(** [n += 1] on a 64-bit [usize]: panics with overflow checks, wraps without. *)
Definition incr {E} (n : N) : res E N :=
  _ <- panic_unless (negb debug_assertions || (n + 1 <? U64)) ;;
  Ok ((n + 1) mod U64).

(** src/v2/mod.rs:306-310 and 339-343 [input], for [Modifiable] and [InputsOnlyModifiable]. *)
Definition constructor_input {E} (i : input) (p : psbt) : res E psbt :=
  c <- incr (g_input_count (p_global p)) ;;
  Ok (Psbt (set_g_input_count c (p_global p)) (p_inputs p ++ [i]) (p_outputs p)).
(** src/v2/mod.rs:313-317 and 366-370 [output], for [Modifiable] and [OutputsOnlyModifiable]. *)
Definition constructor_output {E} (o : output) (p : psbt) : res E psbt :=
  c <- incr (g_output_count (p_global p)) ;;
  Ok (Psbt (set_g_output_count c (p_global p)) (p_inputs p) (p_outputs p ++ [o])).
(** src/v2/mod.rs:262-265. *)
Definition constructor_no_more_inputs (p : psbt) : psbt := on_global clear_inputs_modifiable_flag p.
(** src/v2/mod.rs:268-271. *)
Definition constructor_no_more_outputs (p : psbt) : psbt := on_global clear_outputs_modifiable_flag p.
(** src/v2/mod.rs:283-286. *)
Definition constructor_psbt (p : psbt) : res dlterr psbt :=
  _ <- determine_lock_time p ;; Ok p.
(** src/v2/mod.rs:274-276. *)
Definition constructor_updater (p : psbt) : res dlterr psbt :=
  constructor_psbt (constructor_no_more_outputs (constructor_no_more_inputs p)).

(** ** Updater and Signer, src/v2/mod.rs:383-494 *)

(** src/v2/mod.rs:387-390, 428 and 440-443 [Updater::new], [Signer::new]. *)
Definition updater_new (p : psbt) : res dlterr psbt := _ <- determine_lock_time p ;; Ok p.
Definition signer_new (p : psbt) : res dlterr psbt := _ <- determine_lock_time p ;; Ok p.
(** src/v2/mod.rs:393-395 [Updater::id]. *)
Definition updater_id {E} (p : psbt) : res E bytes := expect_ok (psbt_id p).
(** src/v2/mod.rs:446 [Signer::id]. *)
Definition signer_id (p : psbt) : res dlterr bytes := psbt_id p.
(** src/v2/mod.rs:449-451 [Signer::unsigned_tx]. *)
Definition signer_unsigned_tx {E} (p : psbt) : res E tx := expect_ok (unsigned_tx p).

(** src/v2/mod.rs:893-901 [check_input_index]. *)
Definition check_input_index (p : psbt) (index : N) : res ierridx unit :=
  _ <- fail_if (blen (p_inputs p) <=? index) (IdxInputs index (blen (p_inputs p))) ;;
  fail_if (g_input_count (p_global p) <=? index) (IdxCount index (g_input_count (p_global p))).
(** src/v2/mod.rs:882-885 [checked_input]; the indexing in line 884 would panic. *)
Definition checked_input (p : psbt) (index : N) : res ierridx input :=
  _ <- check_input_index p index ;;
  expect (nth_N (p_inputs p) index).

(** Replacing an element: assignment through a [&mut] to an element. *)
Fixpoint set_nth {A} (n : nat) (a : A) (l : list A) : list A :=
  match n, l with
  | _, [] => []
  | O, _ :: r => a :: r
  | S n', b :: r => b :: set_nth n' a r
  end.

(** src/v2/mod.rs:398-406 [Updater::set_sequence], through [checked_input_mut] (888-891). *)
Definition updater_set_sequence (n : N) (index : N) (p : psbt) : res ierridx psbt :=
  i <- checked_input p index ;;
  Ok (set_p_inputs (set_nth (N.to_nat index) (set_in_sequence (Some n) i) (p_inputs p)) p).

(** src/v2/mod.rs:691-710 [clear_tx_modifiable]. *)
Definition clear_tx_modifiable (ty : N) (p : psbt) : psbt :=
  let g := p_global p in
  let g := if (ty =? 129) || (ty =? 130) || (ty =? 131) then g else clear_inputs_modifiable_flag g in
  let g := if (ty =? 2) || (ty =? 130) then g else clear_outputs_modifiable_flag g in
  let g := if (ty =? 3) || (ty =? 131) then set_sighash_single_flag g else g in
  set_p_global g p.
(** src/v2/mod.rs:488-490 [Signer::ecdsa_clear_tx_modifiable]; the discriminants of
    [EcdsaSighashType] are the consensus numbers. *)
Definition signer_clear_tx_modifiable (ty : N) (p : psbt) : psbt := clear_tx_modifiable ty p.

(** ** Combiner, src/v2/mod.rs:675-687 *)

(** [for (a, b) in self.iter_mut().zip(other) { a.combine(b)? }]. *)
Fixpoint combine_zip {E A} (f : A -> A -> res E A) (l l' : list A) : res E (list A) :=
  match l, l' with
  | a :: r, b :: r' =>
      c <- f a b ;;
      cs <- combine_zip f r r' ;;
      Ok (c :: cs)
  | l, _ => Ok l
  end.

(** src/v2/mod.rs:675-687 [combine_with] and 79 [combine]. *)
Definition psbt_combine (self other : psbt) : res comberr psbt :=
  g <- map_err CombGlobal (global_combine (p_global self) (p_global other)) ;;
  is <- map_err CombInput (combine_zip input_combine (p_inputs self) (p_inputs other)) ;;
  os <- map_err CombOutput (combine_zip output_combine (p_outputs self) (p_outputs other)) ;;
  Ok (Psbt g is os).

(** ** Fee, src/v2/mod.rs:951-967 *)
Definition psbt_fee (p : psbt) : res feeerr N :=
  input_value <- checked_sum FeeInputOverflow 0
                   (map (fun r => map_err FeeFundingUtxo (u <- r ;; Ok (to_value u))) (psbt_funding_utxos p)) ;;
  output_value <- checked_sum FeeOutputOverflow 0 (map (fun o => Ok (out_amount o)) (p_outputs p)) ;;
  if output_value <=? input_value then Ok (input_value - output_value) else Err FeeNegative.

(** ** Extractor, src/v2/extract.rs *)

(** src/v2/extract.rs:32-39 [Extractor::new]. *)
Definition extractor_new (p : psbt) : res extracterr psbt :=
  _ <- fail_if (existsb (fun i => negb (input_is_finalized i)) (p_inputs p)) ExPsbtNotFinalized ;;
  _ <- map_err ExDetermineLockTime (determine_lock_time p) ;;
  Ok p.
(** src/v2/extract.rs:42-44 [Extractor::id]. *)
Definition extractor_id {E} (p : psbt) : res E bytes := expect_ok (psbt_id p).

(** [iter().map(signed_tx_in).collect()]; the first panic wins. *)
Fixpoint signed_inputs {E} (l : list input) : res E (list txin) :=
  match l with
  | [] => Ok []
  | i :: r =>
      t <- input_signed_tx_in i ;;
      ts <- signed_inputs r ;;
      Ok (t :: ts)
  end.

(** src/v2/extract.rs:110-125 [internal_extract_tx] and 82-84. *)
Definition extract_tx_unchecked (p : psbt) : res extracttxerr tx :=
  _ <- fail_if (negb (psbt_is_finalized p)) ETUnfinalized ;;
  lock_time <- map_err ETDetermineLockTime (determine_lock_time p) ;;
  ins <- signed_inputs (p_inputs p) ;;
  Ok (Tx (g_tx_version (p_global p)) lock_time ins (map output_tx_out (p_outputs p))).

(** [FeeRate::from_sat_per_vb_unchecked(25_000)] in sat/kwu (src/v2/extract.rs:52). *)
Definition DEFAULT_MAX_FEE_RATE : N := 25000 * 250.
(** [u64::saturating_mul]. *)
Definition saturating_mul (a b : N) : N := N.min (a * b) (U64 - 1).

(** src/v2/extract.rs:87-103 [internal_extract_tx_with_fee_rate_limit] and 73-78.  The
    weight of a transaction is never zero ([tx_weight] counts its version field). *)
Definition extract_tx_with_fee_rate_limit (max_fee_rate : N) (p : psbt) : res extractfeeerr tx :=
  fee <- map_err EFFee (psbt_fee p) ;;
  t <- map_err EFExtractTx (extract_tx_unchecked p) ;;
  let fee_rate := saturating_mul fee 1000 / tx_weight t in
  _ <- fail_if (max_fee_rate <? fee_rate) (EFFeeTooHigh fee_rate max_fee_rate) ;;
  Ok t.
(** src/v2/extract.rs:55-57 and 66-68 [extract_tx], [extract_tx_fee_rate_limit]. *)
Definition extract_tx (p : psbt) : res extractfeeerr tx :=
  extract_tx_with_fee_rate_limit DEFAULT_MAX_FEE_RATE p.

End Roles.
