(** What the errors of combining say, and what a failure leaves behind. *)
From Verif Require Import Base OMap Consensus Ext Raw TapTree Serialize MapCodec V2Global V2Input V2Output V2Psbt SpecRoles SpecCombine V2Roles
  V0Error V0Input V0Output V0Psbt SpecCombine0.
Local Open Scope N_scope.

(** The key sources of the xpubs of two PSBTs agree. *)
Definition xpubs_agree (a b : list (xpub * keysource)) : Prop :=
  forall x ka kb, In (x, ka) a -> In (x, kb) b -> nested ka kb.

(** [x] is the first xpub of [b] whose key sources disagree, and its path in [b] is at least
    as long as in [a]. *)
Definition xpub_conflict (a b : list (xpub * keysource)) (x : xpub) : Prop :=
  exists l1 kb l2 ka, b = l1 ++ (x, kb) :: l2 /\ In (x, ka) a
    /\ (length (ks_path ka) <= length (ks_path kb))%nat /\ ~ suffix (ks_path ka) (ks_path kb)
    /\ xpubs_agree a l1.

(** The elements at [n] are the first that differ in [R]. *)
Definition first_at {A} (R : A -> A -> Prop) (l l' : list A) (n : nat) (a b : A) : Prop :=
  nth_error l n = Some a /\ nth_error l' n = Some b
  /\ forall m a' b', (m < n)%nat -> nth_error l m = Some a' -> nth_error l' m = Some b' -> R a' b'.

Definition same_point (i j : input) : Prop := outpoint_of i = outpoint_of j.
Definition same_payment (o o' : output) : Prop := payment_of o = payment_of o'.
Definition all_agree {A} (R : A -> A -> Prop) (l l' : list A) : Prop :=
  forall n a b, nth_error l n = Some a -> nth_error l' n = Some b -> R a b.

(** The two PSBTs can be combined. *)
Definition globals_agree (a b : global) : Prop :=
  g_version a = g_version b /\ g_tx_version a = g_tx_version b /\ xpubs_agree (g_xpubs a) (g_xpubs b).

Definition global_disagree (a b : global) (e : gcerr) : Prop :=
  match e with
  | GCVersionMismatch this that => g_version a <> g_version b /\ this = g_version a /\ that = g_version b
  | GCTxVersionMismatch this that =>
      g_version a = g_version b /\ g_tx_version a <> g_tx_version b /\ this = g_tx_version a /\ that = g_tx_version b
  | GCInconsistentKeySources x =>
      g_version a = g_version b /\ g_tx_version a = g_tx_version b /\ xpub_conflict (g_xpubs a) (g_xpubs b) x
  end.
Definition input_disagree (i j : input) (e : icerr) : Prop :=
  match e with
  | ICPreviousTxidMismatch this that =>
      in_previous_txid i <> in_previous_txid j /\ this = in_previous_txid i /\ that = in_previous_txid j
  | ICSpentOutputIndexMismatch this that =>
      in_previous_txid i = in_previous_txid j /\ in_spent_output_index i <> in_spent_output_index j
      /\ this = in_spent_output_index i /\ that = in_spent_output_index j
  end.
Definition output_disagree (o o' : output) (e : ocerr) : Prop :=
  match e with
  | OCAmountMismatch this that => out_amount o <> out_amount o' /\ this = out_amount o /\ that = out_amount o'
  | OCScriptPubkeyMismatch this that =>
      out_amount o = out_amount o' /\ out_script_pubkey o <> out_script_pubkey o'
      /\ this = out_script_pubkey o /\ that = out_script_pubkey o'
  end.

(** The error of combining [a] with [b] is the first disagreement: of the global maps, of the
    inputs, of the outputs. *)
Definition disagree (a b : psbt) (e : comberr) : Prop :=
  match e with
  | CombGlobal e => global_disagree (p_global a) (p_global b) e
  | CombInput e =>
      globals_agree (p_global a) (p_global b)
      /\ exists n i j, first_at same_point (p_inputs a) (p_inputs b) n i j /\ input_disagree i j e
  | CombOutput e =>
      globals_agree (p_global a) (p_global b) /\ all_agree same_point (p_inputs a) (p_inputs b)
      /\ exists n o o', first_at same_payment (p_outputs a) (p_outputs b) n o o' /\ output_disagree o o' e
  end.

Definition disagree0 (a b : psbt0) (e : err0) : Prop :=
  (p0_unsigned_tx a <> p0_unsigned_tx b /\ e = E0UnexpectedUnsignedTx (p0_unsigned_tx a) (p0_unsigned_tx b))
  \/ (p0_unsigned_tx a = p0_unsigned_tx b /\ exists x, e = E0CombineInconsistentKeySources x /\ xpub_conflict (p0_xpub a) (p0_xpub b) x).

(** [c] are the xpubs of [a] after those of [b] that come before [x] were merged into them. *)
Definition merged_before (a b : list (xpub * keysource)) (x : xpub) (c : list (xpub * keysource)) : Prop :=
  exists l1 kb l2, b = l1 ++ (x, kb) :: l2
    /\ (forall y k, ~ In y (map fst l1) -> (In (y, k) c <-> In (y, k) a))
    /\ (forall y k, In (y, k) l1 -> ~ In y (map fst a) -> In (y, k) c)
    /\ (forall y ka k', In (y, ka) a -> In (y, k') l1 ->
          exists k, In (y, k) c /\ (doc_merge ka k' (Some k) \/ ks_path ka = ks_path k' /\ ks_fp ka <> ks_fp k' /\ k = k')).
