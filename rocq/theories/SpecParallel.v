(** Specification of several signers and combiners working on one v2 PSBT, independent of the
    code's helpers. *)
From Verif Require Import Base OMap Consensus Ext Serialize V2Global V2Input V2Output V2Psbt V2Roles V2Sign SpecSign.
Local Open Scope N_scope.

Section Parallel.
Context `{X : Ext} `{C : Cfg} `{S : SignExt}.

(** What can be made of [p] when [ks] sign, in any way of passing the PSBT around; combiners
    work on copies that someone has signed. *)
Inductive made2 (p : psbt) : list provider -> psbt -> Prop :=
| Made2First k q used : signer_sign k p = Ok (q, used) -> made2 p [k] q
| Made2Sign k ks q r used : made2 p ks q -> signer_sign k q = Ok (r, used) -> made2 p (k :: ks) r
| Made2Combine ks ks' q q' r : made2 p ks q -> made2 p ks' q' -> psbt_combine q q' = Ok r -> made2 p (ks ++ ks') r.

(** Keys of the signers with the same public key are the same, and no key of theirs has signed
    before with another result. *)
Record team2 (p : psbt) (ks : list provider) : Prop := {
  t2_agree : forall k k' i sks sks' a b, In k ks -> In k' ks -> In i (p_inputs p) ->
    keys_for k (in_bip32_derivations i) sks -> keys_for k' (in_bip32_derivations i) sks' ->
    In a sks -> In b sks' -> public_of a = public_of b -> pv_secret a = pv_secret b;
  t2_fresh : forall k t n i m ty sks pk s, In k ks -> unsigned_tx p = Ok t ->
    nth_error (p_inputs p) (N.to_nat n) = Some i -> to_sign p t n m ty ->
    keys_for k (in_bip32_derivations i) sks -> In pk (map public_of sks) ->
    m_get sk_pubkey pk (in_partial_sigs i) = Some s -> signature_by sks m ty pk s
}.

End Parallel.
