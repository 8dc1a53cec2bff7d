(** Combining in place: what [self] is when the combining methods that take [&mut self]
    return (src/v2/map/global.rs:394-454, src/v0/bitcoin/mod.rs:224-287).

    [global_combine] and [psbt0_combine] give the result only when there is one; here the
    value that is left behind by a failure is part of the result.  A panic is not caught:
    what it leaves behind is not modelled, [self] is returned. *)
From Verif Require Import Base OMap Consensus Ext Raw TapTree Serialize MapCodec V2Global V0Error V0Input V0Output V0Psbt.
Local Open Scope N_scope.

Section CombineMut.
Context `{X : Ext} `{C : Cfg}.

(** src/v2/map/global.rs:412-444: the loop over [other.xpubs]; an entry of [self.xpubs] is
    changed by [entry.insert] only. *)
Fixpoint merge_xpubs_mut (l m : list (xpub * keysource)) : list (xpub * keysource) * res gcerr unit :=
  match l with
  | [] => (m, Ok tt)
  | (x, ks) :: l' =>
      match global_merge_xpub x ks m with
      | Ok m' => merge_xpubs_mut l' m'
      | Err e => (m, Err e)
      | Panic => (m, Panic)
      end
  end.

(** [self.xpubs] replaced (src/v2/map/global.rs:412-444). *)
Definition set_g_xpubs (g : global) (xs : list (xpub * keysource)) : global :=
  Global (g_version g) (g_tx_version g) (g_fallback_lock_time g) (g_tx_modifiable_flags g) (g_input_count g) (g_output_count g)
    xs (g_sp_ecdh_shares g) (g_sp_dleq_proofs g) (g_proprietaries g) (g_unknowns g).

(** src/v2/map/global.rs:394-454 [Global::combine]. *)
Definition global_combine_mut (self other : global) : global * res gcerr unit :=
  if negb (g_version self =? g_version other) then (self, Err (GCVersionMismatch (g_version self) (g_version other)))
  else if negb (g_tx_version self =? g_tx_version other)
  then (self, Err (GCTxVersionMismatch (g_tx_version self) (g_tx_version other)))
  else
    match merge_xpubs_mut (g_xpubs other) (g_xpubs self) with
    | (xs, Ok _) =>
        (Global (g_version self) (g_tx_version self) (g_fallback_lock_time self)
           (g_tx_modifiable_flags self) (g_input_count self) (g_output_count self) xs
           (comb_map bkey (g_sp_ecdh_shares self) (g_sp_ecdh_shares other))
           (comb_map bkey (g_sp_dleq_proofs self) (g_sp_dleq_proofs other))
           (comb_map sk_propkey (g_proprietaries self) (g_proprietaries other))
           (comb_map sk_key (g_unknowns self) (g_unknowns other)), Ok tt)
    | (xs, Err e) => (set_g_xpubs self xs, Err e)
    | (_, Panic) => (self, Panic)
    end.

(** src/v0/bitcoin/mod.rs:239-273: the same loop. *)
Fixpoint merge_xpubs0_mut (l m : list (xpub * keysource)) : list (xpub * keysource) * res err0 unit :=
  match l with
  | [] => (m, Ok tt)
  | (x, ks) :: l' =>
      match merge_xpub0 x ks m with
      | Ok m' => merge_xpubs0_mut l' m'
      | Err e => (m, Err e)
      | Panic => (m, Panic)
      end
  end.

(** src/v0/bitcoin/mod.rs:224-287 [Psbt::combine]. *)
Definition psbt0_combine_mut (self other : psbt0) : psbt0 * res err0 unit :=
  if tx_dec (p0_unsigned_tx self) (p0_unsigned_tx other) then
    let version := N.max (p0_version self) (p0_version other) in
    match merge_xpubs0_mut (p0_xpub other) (p0_xpub self) with
    | (xs, Ok _) =>
        (Psbt0 (p0_unsigned_tx self) version xs
           (comb_map sk_propkey (p0_proprietary self) (p0_proprietary other))
           (comb_map sk_key (p0_unknown self) (p0_unknown other))
           (zip_combine input0_combine (p0_inputs self) (p0_inputs other))
           (zip_combine output0_combine (p0_outputs self) (p0_outputs other)), Ok tt)
    | (xs, Err e) =>
        (Psbt0 (p0_unsigned_tx self) version xs (p0_proprietary self) (p0_unknown self) (p0_inputs self) (p0_outputs self), Err e)
    | (_, Panic) => (self, Panic)
    end
  else (self, Err (E0UnexpectedUnsignedTx (p0_unsigned_tx self) (p0_unsigned_tx other))).

End CombineMut.
