(** Model of src/v2/map/global.rs. *)
From Verif Require Import Base OMap Consensus Ext Raw Serialize MapCodec.
Local Open Scope N_scope.

(** src/v2/map/global.rs:42-81, [Global]. *)
Record global : Type := Global {
  g_version : N;  (* 44 *)
  g_tx_version : N;  (* 47 *)
  g_fallback_lock_time : option N;  (* 50 *)
  g_tx_modifiable_flags : N;  (* 53 *)
  g_input_count : N;  (* 56 *)
  g_output_count : N;  (* 59 *)
  g_xpubs : list (xpub * keysource);  (* 62 *)
  g_sp_ecdh_shares : list (bytes * bytes);  (* 67 *)
  g_sp_dleq_proofs : list (bytes * bytes);  (* 72 *)
  g_proprietaries : list (propkey * bytes);  (* 76 *)
  g_unknowns : list (key * bytes)  (* 80 *)
}.

(** Field assignments [self.field = value] on global (Rust's field update, src/v2/map/global.rs:42-81). *)
(** src/v2/map/global.rs:44, assignment to the field. *)
Definition set_g_version (v : N) (s : global) : global :=
  Global v (g_tx_version s) (g_fallback_lock_time s) (g_tx_modifiable_flags s) (g_input_count
    s) (g_output_count s) (g_xpubs s) (g_sp_ecdh_shares s) (g_sp_dleq_proofs s) (g_proprietaries
    s) (g_unknowns s).
(** src/v2/map/global.rs:47, assignment to the field. *)
Definition set_g_tx_version (v : N) (s : global) : global :=
  Global (g_version s) v (g_fallback_lock_time s) (g_tx_modifiable_flags s) (g_input_count s)
    (g_output_count s) (g_xpubs s) (g_sp_ecdh_shares s) (g_sp_dleq_proofs s) (g_proprietaries s)
    (g_unknowns s).
(** src/v2/map/global.rs:50, assignment to the field. *)
Definition set_g_fallback_lock_time (v : option N) (s : global) : global :=
  Global (g_version s) (g_tx_version s) v (g_tx_modifiable_flags s) (g_input_count s)
    (g_output_count s) (g_xpubs s) (g_sp_ecdh_shares s) (g_sp_dleq_proofs s) (g_proprietaries s)
    (g_unknowns s).
(** src/v2/map/global.rs:53, assignment to the field. *)
Definition set_g_tx_modifiable_flags (v : N) (s : global) : global :=
  Global (g_version s) (g_tx_version s) (g_fallback_lock_time s) v (g_input_count s)
    (g_output_count s) (g_xpubs s) (g_sp_ecdh_shares s) (g_sp_dleq_proofs s) (g_proprietaries s)
    (g_unknowns s).
(** src/v2/map/global.rs:56, assignment to the field. *)
Definition set_g_input_count (v : N) (s : global) : global :=
  Global (g_version s) (g_tx_version s) (g_fallback_lock_time s) (g_tx_modifiable_flags s) v
    (g_output_count s) (g_xpubs s) (g_sp_ecdh_shares s) (g_sp_dleq_proofs s) (g_proprietaries s)
    (g_unknowns s).
(** src/v2/map/global.rs:59, assignment to the field. *)
Definition set_g_output_count (v : N) (s : global) : global :=
  Global (g_version s) (g_tx_version s) (g_fallback_lock_time s) (g_tx_modifiable_flags s)
    (g_input_count s) v (g_xpubs s) (g_sp_ecdh_shares s) (g_sp_dleq_proofs s) (g_proprietaries
    s) (g_unknowns s).
(** src/v2/map/global.rs:62, assignment to the field. *)
Definition set_g_xpubs (v : list (xpub * keysource)) (s : global) : global :=
  Global (g_version s) (g_tx_version s) (g_fallback_lock_time s) (g_tx_modifiable_flags s)
    (g_input_count s) (g_output_count s) v (g_sp_ecdh_shares s) (g_sp_dleq_proofs s)
    (g_proprietaries s) (g_unknowns s).
(** src/v2/map/global.rs:67, assignment to the field. *)
Definition set_g_sp_ecdh_shares (v : list (bytes * bytes)) (s : global) : global :=
  Global (g_version s) (g_tx_version s) (g_fallback_lock_time s) (g_tx_modifiable_flags s)
    (g_input_count s) (g_output_count s) (g_xpubs s) v (g_sp_dleq_proofs s) (g_proprietaries s)
    (g_unknowns s).
(** src/v2/map/global.rs:72, assignment to the field. *)
Definition set_g_sp_dleq_proofs (v : list (bytes * bytes)) (s : global) : global :=
  Global (g_version s) (g_tx_version s) (g_fallback_lock_time s) (g_tx_modifiable_flags s)
    (g_input_count s) (g_output_count s) (g_xpubs s) (g_sp_ecdh_shares s) v (g_proprietaries s)
    (g_unknowns s).
(** src/v2/map/global.rs:76, assignment to the field. *)
Definition set_g_proprietaries (v : list (propkey * bytes)) (s : global) : global :=
  Global (g_version s) (g_tx_version s) (g_fallback_lock_time s) (g_tx_modifiable_flags s)
    (g_input_count s) (g_output_count s) (g_xpubs s) (g_sp_ecdh_shares s) (g_sp_dleq_proofs s) v
    (g_unknowns s).
(** src/v2/map/global.rs:80, assignment to the field. *)
Definition set_g_unknowns (v : list (key * bytes)) (s : global) : global :=
  Global (g_version s) (g_tx_version s) (g_fallback_lock_time s) (g_tx_modifiable_flags s)
    (g_input_count s) (g_output_count s) (g_xpubs s) (g_sp_ecdh_shares s) (g_sp_dleq_proofs s)
    (g_proprietaries s) v.

(** src/v2/map/global.rs:146-159, the local variables of [Global::decode]. *)
Record gdec : Type := GDec {
  gd_version : option N;  (* 146 *)
  gd_tx_version : option N;  (* 147 *)
  gd_fallback_lock_time : option N;  (* 148 *)
  gd_tx_modifiable_flags : option N;  (* 149 *)
  gd_counts : option N * option N;  (* 150-151: input_count, output_count *)
  gd_xpubs : list (xpub * keysource);  (* 152 *)
  gd_sp_ecdh_shares : list (bytes * bytes);  (* 154-155 *)
  gd_sp_dleq_proofs : list (bytes * bytes);  (* 157 *)
  gd_proprietaries : list (propkey * bytes);  (* 158 *)
  gd_unknowns : list (key * bytes)  (* 159 *)
}.

(** Field assignments [self.field = value] on gdec (Rust's field update, src/v2/map/global.rs:146-159). *)
(** src/v2/map/global.rs:146, assignment to the field. *)
Definition set_gd_version (v : option N) (s : gdec) : gdec :=
  GDec v (gd_tx_version s) (gd_fallback_lock_time s) (gd_tx_modifiable_flags s) (gd_counts s)
    (gd_xpubs s) (gd_sp_ecdh_shares s) (gd_sp_dleq_proofs s) (gd_proprietaries s) (gd_unknowns
    s).
(** src/v2/map/global.rs:147, assignment to the field. *)
Definition set_gd_tx_version (v : option N) (s : gdec) : gdec :=
  GDec (gd_version s) v (gd_fallback_lock_time s) (gd_tx_modifiable_flags s) (gd_counts s)
    (gd_xpubs s) (gd_sp_ecdh_shares s) (gd_sp_dleq_proofs s) (gd_proprietaries s) (gd_unknowns
    s).
(** src/v2/map/global.rs:148, assignment to the field. *)
Definition set_gd_fallback_lock_time (v : option N) (s : gdec) : gdec :=
  GDec (gd_version s) (gd_tx_version s) v (gd_tx_modifiable_flags s) (gd_counts s) (gd_xpubs
    s) (gd_sp_ecdh_shares s) (gd_sp_dleq_proofs s) (gd_proprietaries s) (gd_unknowns s).
(** src/v2/map/global.rs:149, assignment to the field. *)
Definition set_gd_tx_modifiable_flags (v : option N) (s : gdec) : gdec :=
  GDec (gd_version s) (gd_tx_version s) (gd_fallback_lock_time s) v (gd_counts s) (gd_xpubs s)
    (gd_sp_ecdh_shares s) (gd_sp_dleq_proofs s) (gd_proprietaries s) (gd_unknowns s).
(** src/v2/map/global.rs:150-151, assignment to the field. *)
Definition set_gd_counts (v : option N * option N) (s : gdec) : gdec :=
  GDec (gd_version s) (gd_tx_version s) (gd_fallback_lock_time s) (gd_tx_modifiable_flags s) v
    (gd_xpubs s) (gd_sp_ecdh_shares s) (gd_sp_dleq_proofs s) (gd_proprietaries s) (gd_unknowns
    s).
(** src/v2/map/global.rs:152, assignment to the field. *)
Definition set_gd_xpubs (v : list (xpub * keysource)) (s : gdec) : gdec :=
  GDec (gd_version s) (gd_tx_version s) (gd_fallback_lock_time s) (gd_tx_modifiable_flags s)
    (gd_counts s) v (gd_sp_ecdh_shares s) (gd_sp_dleq_proofs s) (gd_proprietaries s)
    (gd_unknowns s).
(** src/v2/map/global.rs:154-155, assignment to the field. *)
Definition set_gd_sp_ecdh_shares (v : list (bytes * bytes)) (s : gdec) : gdec :=
  GDec (gd_version s) (gd_tx_version s) (gd_fallback_lock_time s) (gd_tx_modifiable_flags s)
    (gd_counts s) (gd_xpubs s) v (gd_sp_dleq_proofs s) (gd_proprietaries s) (gd_unknowns s).
(** src/v2/map/global.rs:157, assignment to the field. *)
Definition set_gd_sp_dleq_proofs (v : list (bytes * bytes)) (s : gdec) : gdec :=
  GDec (gd_version s) (gd_tx_version s) (gd_fallback_lock_time s) (gd_tx_modifiable_flags s)
    (gd_counts s) (gd_xpubs s) (gd_sp_ecdh_shares s) v (gd_proprietaries s) (gd_unknowns s).
(** src/v2/map/global.rs:158, assignment to the field. *)
Definition set_gd_proprietaries (v : list (propkey * bytes)) (s : gdec) : gdec :=
  GDec (gd_version s) (gd_tx_version s) (gd_fallback_lock_time s) (gd_tx_modifiable_flags s)
    (gd_counts s) (gd_xpubs s) (gd_sp_ecdh_shares s) (gd_sp_dleq_proofs s) v (gd_unknowns s).
(** src/v2/map/global.rs:159, assignment to the field. *)
Definition set_gd_unknowns (v : list (key * bytes)) (s : gdec) : gdec :=
  GDec (gd_version s) (gd_tx_version s) (gd_fallback_lock_time s) (gd_tx_modifiable_flags s)
    (gd_counts s) (gd_xpubs s) (gd_sp_ecdh_shares s) (gd_sp_dleq_proofs s) (gd_proprietaries s)
    v.

(** src/v2/map/global.rs:543-562 [DecodeError]. *)
Inductive gderr : Type :=
| GDInsertPair (e : ierr)
| GDDeserPair (e : serr)
| GDMissingVersion
| GDMissingTxVersion
| GDMissingInputCount
| GDInputCountOverflow (n : N)
| GDMissingOutputCount
| GDOutputCountOverflow (n : N)
| GDFieldMismatch.

(** src/v2/map/global.rs:732-749 [CombineError]. *)
Inductive gcerr : Type :=
| GCVersionMismatch (this that : N)
| GCTxVersionMismatch (this that : N)
| GCInconsistentKeySources (x : xpub).

(** src/v2/map/global.rs:31-37. *)
Definition INPUTS_MODIFIABLE : N := 1.
Definition OUTPUTS_MODIFIABLE : N := 2.
Definition SIGHASH_SINGLE_FLAG : N := 4.

Section Global.
Context `{X : Ext} `{C : Cfg}.

(** src/v2/map/global.rs:84-101 [Global::new] and 457-459 [Default]. *)
Definition global_new : global := Global 2 2 None 0 0 0 [] [] [] [] [].

(** src/v2/map/global.rs:103-105. *)
Definition set_inputs_modifiable_flag (g : global) : global :=
  set_g_tx_modifiable_flags (N.lor (g_tx_modifiable_flags g) INPUTS_MODIFIABLE) g.
(** src/v2/map/global.rs:107-109. *)
Definition set_outputs_modifiable_flag (g : global) : global :=
  set_g_tx_modifiable_flags (N.lor (g_tx_modifiable_flags g) OUTPUTS_MODIFIABLE) g.
(** src/v2/map/global.rs:113. *)
Definition set_sighash_single_flag (g : global) : global :=
  set_g_tx_modifiable_flags (N.lor (g_tx_modifiable_flags g) SIGHASH_SINGLE_FLAG) g.
(** src/v2/map/global.rs:115-117 ([x & !y] is [N.ldiff x y]). *)
Definition clear_inputs_modifiable_flag (g : global) : global :=
  set_g_tx_modifiable_flags (N.ldiff (g_tx_modifiable_flags g) INPUTS_MODIFIABLE) g.
(** src/v2/map/global.rs:119-121. *)
Definition clear_outputs_modifiable_flag (g : global) : global :=
  set_g_tx_modifiable_flags (N.ldiff (g_tx_modifiable_flags g) OUTPUTS_MODIFIABLE) g.
(** src/v2/map/global.rs:125-127. *)
Definition clear_sighash_single_flag (g : global) : global :=
  set_g_tx_modifiable_flags (N.ldiff (g_tx_modifiable_flags g) SIGHASH_SINGLE_FLAG) g.
(** src/v2/map/global.rs:129-131. *)
Definition is_inputs_modifiable (g : global) : bool :=
  0 <? N.land (g_tx_modifiable_flags g) INPUTS_MODIFIABLE.
(** src/v2/map/global.rs:133-135. *)
Definition is_outputs_modifiable (g : global) : bool :=
  0 <? N.land (g_tx_modifiable_flags g) OUTPUTS_MODIFIABLE.
(** src/v2/map/global.rs:139-141. *)
Definition has_sighash_single (g : global) : bool :=
  0 <? N.land (g_tx_modifiable_flags g) SIGHASH_SINGLE_FLAG.

(** src/v2/map/global.rs:164-184 PSBT_GLOBAL_VERSION. *)
Definition gins_version (p : pair) (cur : option N) : res ierr (option N) :=
  if is_empty (k_data (p_key p)) then
    if is_none cur then
      _ <- fail_if (negb (blen (p_value p) =? 4)) (IValueWrongLength (blen (p_value p)) 4) ;;
      '(ver, _) <- map_err IConsensus (dec_u32 (p_value p)) ;;
      _ <- fail_if (negb (ver =? 2)) (IWrongVersion ver) ;;
      Ok (Some ver)
    else Err (IDuplicateKey (p_key p))
  else Err (IInvalidKeyDataNotEmpty (p_key p)).

(** src/v2/map/global.rs:185-201 PSBT_GLOBAL_TX_VERSION and 202-216
    PSBT_GLOBAL_FALLBACK_LOCKTIME: a four byte integer. *)
Definition gins_u32 (p : pair) (cur : option N) : res ierr (option N) :=
  if is_empty (k_data (p_key p)) then
    if is_none cur then
      _ <- fail_if (negb (blen (p_value p) =? 4)) (IValueWrongLength (blen (p_value p)) 4) ;;
      '(n, _) <- map_err IConsensus (dec_u32 (p_value p)) ;;
      Ok (Some n)
    else Err (IDuplicateKey (p_key p))
  else Err (IInvalidKeyDataNotEmpty (p_key p)).

(** src/v2/map/global.rs:217-231 PSBT_GLOBAL_INPUT_COUNT; the test for a duplicate is
    made on [output_count]. *)
Definition gins_input_count (p : pair) (cur : option N * option N) : res ierr (option N * option N) :=
  if is_empty (k_data (p_key p)) then
    if is_none (snd cur) then
      '(n, _) <- map_err IConsensus (dec_varint (p_value p)) ;;
      Ok (Some n, snd cur)
    else Err (IDuplicateKey (p_key p))
  else Err (IInvalidKeyDataNotEmpty (p_key p)).

(** src/v2/map/global.rs:232-246 PSBT_GLOBAL_OUTPUT_COUNT. *)
Definition gins_output_count (p : pair) (cur : option N * option N) : res ierr (option N * option N) :=
  if is_empty (k_data (p_key p)) then
    if is_none (snd cur) then
      '(n, _) <- map_err IConsensus (dec_varint (p_value p)) ;;
      Ok (fst cur, Some n)
    else Err (IDuplicateKey (p_key p))
  else Err (IInvalidKeyDataNotEmpty (p_key p)).

(** src/v2/map/global.rs:247-261 PSBT_GLOBAL_TX_MODIFIABLE. *)
Definition gins_flags (p : pair) (cur : option N) : res ierr (option N) :=
  if is_empty (k_data (p_key p)) then
    if is_none cur then
      _ <- fail_if (negb (blen (p_value p) =? 1)) (IValueWrongLength (blen (p_value p)) 1) ;;
      '(n, _) <- map_err IConsensus (dec_u8 (p_value p)) ;;
      Ok (Some n)
    else Err (IDuplicateKey (p_key p))
  else Err (IInvalidKeyDataNotEmpty (p_key p)).

(** src/v2/map/global.rs:285-287: read u32s until that fails. *)
Fixpoint read_u32s (fuel : nat) (bs : bytes) : list N :=
  match fuel with
  | O => []
  | S f =>
      match dec_u32 bs with
      | Ok (n, r) => n :: read_u32s f r
      | _ => []
      end
  end.

(** src/v2/map/global.rs:262-298 PSBT_GLOBAL_XPUB. *)
Definition gins_xpub (p : pair) (m : list (xpub * keysource)) : res ierr (list (xpub * keysource)) :=
  if is_empty (k_data (p_key p)) then Err (IInvalidKeyDataEmpty (p_key p))
  else
    x <- ok_or (de_xpub (k_data (p_key p))) IBip32 ;;
    let v := p_value p in
    _ <- fail_if (is_empty v) (IInvalidKeyDataNotEmpty (p_key p)) ;;
    _ <- fail_if (blen v <? 4) IXpubInvalidFingerprint ;;
    _ <- fail_if (negb (blen v mod 4 =? 0)) (IXpubInvalidPath (blen v)) ;;
    let ks := KeySource (firstn 4 v) (read_u32s (length v) (skipn 4 v)) in
    match m_get sk_xpub x m with
    | Some old => Err (IDuplicateXpub old)
    | None => Ok (m_put sk_xpub x ks m)
    end.

(** src/v2/map/global.rs:300-314 PSBT_GLOBAL_PROPRIETARY. *)
Definition gins_prop (p : pair) (m : list (propkey * bytes)) : res ierr (list (propkey * bytes)) :=
  if is_empty (k_data (p_key p)) then Err (IInvalidKeyDataEmpty (p_key p))
  else ins_prop (fun _ => IInvalidProprietaryKey) p m.

(** src/v2/map/global.rs:162-340, the closure [insert_pair]; key types from src/consts.rs. *)
Definition global_insert_pair (p : pair) (g : gdec) : res ierr gdec :=
  let t := k_type (p_key p) in
  if beq t xfb then v <- gins_version p (gd_version g) ;; Ok (set_gd_version v g)
  else if beq t x02 then v <- gins_u32 p (gd_tx_version g) ;; Ok (set_gd_tx_version v g)
  else if beq t x03 then v <- gins_u32 p (gd_fallback_lock_time g) ;; Ok (set_gd_fallback_lock_time v g)
  else if beq t x04 then v <- gins_input_count p (gd_counts g) ;; Ok (set_gd_counts v g)
  else if beq t x05 then v <- gins_output_count p (gd_counts g) ;; Ok (set_gd_counts v g)
  else if beq t x06 then v <- gins_flags p (gd_tx_modifiable_flags g) ;; Ok (set_gd_tx_modifiable_flags v g)
  else if beq t x01 then v <- gins_xpub p (gd_xpubs g) ;; Ok (set_gd_xpubs v g)
  else if beq t xfc then v <- gins_prop p (gd_proprietaries g) ;; Ok (set_gd_proprietaries v g)
  else if feat_sp && beq t x07 then
    v <- ins_sp de_cpk 33 p (gd_sp_ecdh_shares g) ;; Ok (set_gd_sp_ecdh_shares v g)
  else if feat_sp && beq t x08 then
    v <- ins_sp dleq_try_from 64 p (gd_sp_dleq_proofs g) ;; Ok (set_gd_sp_dleq_proofs v g)
  else if beq t x00 then Err (IExcludedKey t)
  else v <- ins_unknown p (gd_unknowns g) ;; Ok (set_gd_unknowns v g).

(** src/v2/map/global.rs:146-159: initial values. *)
Definition gdec_init : gdec := GDec None None None None (None, None) [] [] [] [] [].

(** src/v2/map/global.rs:351-388: the checks after the last pair. *)
Definition global_check (d : gdec) : res gderr global :=
  version <- ok_or (gd_version d) GDMissingVersion ;;
  tx_version <- ok_or (gd_tx_version d) GDMissingTxVersion ;;
  let flags := opt_default 0 (gd_tx_modifiable_flags d) in
  input_count <- ok_or (fst (gd_counts d)) GDMissingInputCount ;;
  _ <- fail_if (U64 <=? input_count) (GDInputCountOverflow input_count) ;;
  output_count <- ok_or (snd (gd_counts d)) GDMissingOutputCount ;;
  _ <- fail_if (U64 <=? output_count) (GDOutputCountOverflow output_count) ;;
  _ <- fail_if (feat_sp && negb (Bool.eqb (is_empty (gd_sp_ecdh_shares d)) (is_empty (gd_sp_dleq_proofs d))))
               GDFieldMismatch ;;
  Ok (Global version tx_version (gd_fallback_lock_time d) flags input_count output_count
        (gd_xpubs d) (gd_sp_ecdh_shares d) (gd_sp_dleq_proofs d) (gd_proprietaries d) (gd_unknowns d)).

(** src/v2/map/global.rs:143-389 [Global::decode]. *)
Definition global_decode : reader gderr global :=
  fun bs =>
    '(d, r) <- dec_map (fun p d => map_err GDInsertPair (global_insert_pair p d)) GDDeserPair
                       (S (length bs)) gdec_init bs ;;
    g <- global_check d ;;
    Ok (g, r).

(** Equality of key sources and derivation paths (derived [PartialEq]). *)
Fixpoint path_eqb (a b : list N) : bool :=
  match a, b with
  | [], [] => true
  | x :: a', y :: b' => (x =? y) && path_eqb a' b'
  | _, _ => false
  end.

(** src/v2/map/global.rs:412-444: one iteration of the xpub merging loop.  The slice
    start in line 436 underflows when [derivation1] is the shorter path: with overflow
    checks the subtraction panics, without them the wrapped start is beyond the end
    and the slicing panics. *)
Definition global_merge_xpub (x : xpub) (ks1 : keysource) (m : list (xpub * keysource))
    : res gcerr (list (xpub * keysource)) :=
  match m_get sk_xpub x m with
  | None => Ok (m_put sk_xpub x ks1 m)
  | Some ks2 =>
      let d1 := ks_path ks1 in
      let d2 := ks_path ks2 in
      if (path_eqb d1 d2 && bytes_eqb (ks_fp ks1) (ks_fp ks2))
         || ((length d1 <? length d2)%nat
             && path_eqb d1 (skipn (length d2 - length d1) d2))
      then Ok m
      else if (length d1 <? length d2)%nat then Panic
      else if path_eqb d2 (skipn (length d1 - length d2) d1)
      then Ok (m_put sk_xpub x ks1 m)
      else Err (GCInconsistentKeySources x)
  end.

(** src/v2/map/global.rs:412-444: the loop. *)
Fixpoint global_merge_xpubs (l : list (xpub * keysource)) (m : list (xpub * keysource))
    : res gcerr (list (xpub * keysource)) :=
  match l with
  | [] => Ok m
  | (x, ks) :: l' =>
      m' <- global_merge_xpub x ks m ;;
      global_merge_xpubs l' m'
  end.

(** src/v2/map/global.rs:394-454 [Global::combine].  When it fails Rust leaves the
    xpubs merged so far in [self]; this function returns the error
    only, CombineMut.v has what is left. *)
Definition global_combine (self other : global) : res gcerr global :=
  _ <- fail_if (negb (g_version self =? g_version other))
               (GCVersionMismatch (g_version self) (g_version other)) ;;
  _ <- fail_if (negb (g_tx_version self =? g_tx_version other))
               (GCTxVersionMismatch (g_tx_version self) (g_tx_version other)) ;;
  xs <- global_merge_xpubs (g_xpubs other) (g_xpubs self) ;;
  Ok (Global (g_version self) (g_tx_version self) (g_fallback_lock_time self)
        (g_tx_modifiable_flags self) (g_input_count self) (g_output_count self)
        xs
        (comb_map bkey (g_sp_ecdh_shares self) (g_sp_ecdh_shares other))
        (comb_map bkey (g_sp_dleq_proofs self) (g_sp_dleq_proofs other))
        (comb_map sk_propkey (g_proprietaries self) (g_proprietaries other))
        (comb_map sk_key (g_unknowns self) (g_unknowns other))).

(** src/v2/map/global.rs:462-537 [Map::get_pairs] for [Global]. *)
Definition global_pairs (g : global) : list pair :=
  [Pair (Key xfb []) (ser_version (g_version g))]
  ++ [Pair (Key x02 []) (ser_txversion (g_tx_version g))]
  ++ opt_pairs x03 ser_locktime (g_fallback_lock_time g)
  ++ [Pair (Key x04 []) (ser_varint (g_input_count g))]
  ++ [Pair (Key x05 []) (ser_varint (g_output_count g))]
  ++ [Pair (Key x06 []) [n2b (g_tx_modifiable_flags g)]]
  ++ map_pairs x01 ser_xpub ser_keysource (g_xpubs g)
  ++ (if feat_sp then map_pairs x07 ser_secp ser_secp (g_sp_ecdh_shares g) else [])
  ++ (if feat_sp then map_pairs x08 ser_secp ser_dleq (g_sp_dleq_proofs g) else [])
  ++ prop_pairs (g_proprietaries g)
  ++ unknown_pairs (g_unknowns g).

(** src/v2/map/mod.rs:36-43 [Map::serialize_map] for [Global]. *)
Definition global_serialize (g : global) : bytes := ser_pairs (global_pairs g).

End Global.
