(** What becomes of a key-value pair that is read and written again, from the formats of the
    fields (BIP-174, BIP-370, BIP-371).  Some values have more than one form on the wire. *)
From Coq Require Import Permutation.
From Verif Require Import Base Consensus Ext Raw TapTree MapCodec SpecCodec SpecTx SpecTapTree.
Local Open Scope N_scope.

Section Kept.
Context `{X : Ext} `{C : Cfg}.

(** Inputs: the same pair; or another DER encoding of the same ECDSA signature; or a Schnorr
    signature without the sighash byte that stands for the default; or the compressed form of
    the public key of a derivation ([secp_parse] gives the compressed form). *)
Inductive kept_in0 : pair -> pair -> Prop :=
| K0Same p : kept_in0 p p
| K0Der kd d d' sig t : der_parse d = Some sig -> der_parse d' = Some sig ->
    kept_in0 (Pair (Key x02 kd) (d ++ [t])) (Pair (Key x02 kd) (d' ++ [t]))
| K0Default ty kd s : ty = x13 \/ ty = x14 -> length s = 64%nat ->
    kept_in0 (Pair (Key ty kd) (s ++ [x00])) (Pair (Key ty kd) s)
| K0Key kd kd' v : secp_parse kd = Some kd' -> kept_in0 (Pair (Key x06 kd) v) (Pair (Key x06 kd') v).

(** Outputs: the same pair, or the same tap tree with children swapped, or the compressed form
    of a public key. *)
Inductive kept_out0 : pair -> pair -> Prop :=
| KO0Same p : kept_out0 p p
| KO0Tree sh sh' b b' : tree_allowed sh -> swapped sh sh' -> tree_wire sh b -> tree_wire sh' b' ->
    kept_out0 (Pair (Key x06 []) b) (Pair (Key x06 []) b')
| KO0Key kd kd' v : secp_parse kd = Some kd' -> kept_out0 (Pair (Key x02 kd) v) (Pair (Key x02 kd') v).

(** BIP-375: shares and proofs are kept under the compressed form of the scan key, shares in
    compressed form. *)
Definition kept_share (tshare tproof : byte) (p q : pair) : Prop :=
  exists kd kd', feat_sp = true /\ secp_parse kd = Some kd' /\
    (exists v v', p = Pair (Key tshare kd) v /\ q = Pair (Key tshare kd') v' /\ secp_parse v = Some v'
     \/ p = Pair (Key tproof kd) v /\ q = Pair (Key tproof kd') v).

(** Version 2: bytes after a count, and key data after the types of the required fields, are dropped. *)
Inductive kept_global : pair -> pair -> Prop :=
| KGSame p : kept_global p p
| KGCount ty n c junk : ty = x04 \/ ty = x05 -> compact_size n c ->
    kept_global (Pair (Key ty []) (c ++ junk)) (Pair (Key ty []) c)
| KGShare p q : kept_share x07 x08 p q -> kept_global p q.
Inductive kept_in : pair -> pair -> Prop :=
| KI0 p q : kept_in0 p q -> kept_in p q
| KIKey ty kd v : ty = x0e \/ ty = x0f -> kept_in (Pair (Key ty kd) v) (Pair (Key ty []) v)
| KIShare p q : kept_share x1d x1e p q -> kept_in p q.
Inductive kept_out : pair -> pair -> Prop :=
| KO0 p q : kept_out0 p q -> kept_out p q
| KOKey ty kd v : ty = x03 \/ ty = x04 -> kept_out (Pair (Key ty kd) v) (Pair (Key ty []) v).

(** Each pair of [l] is kept; [e] are the pairs that are written besides. *)
Definition rewritten (kept : pair -> pair -> Prop) (e l l' : list pair) : Prop :=
  exists k, Forall2 kept l k /\ Permutation l' (k ++ e).

(** Only the last pair of a key type. *)
Fixpoint last_only (t : byte) (l : list pair) : list pair :=
  match l with
  | [] => []
  | p :: r => if beq (k_type (p_key p)) t && existsb (fun q => beq (k_type (p_key q)) t) r then last_only t r else p :: last_only t r
  end.
(** No pair of a key type. *)
Definition lacks (t : byte) (l : list pair) : bool := forallb (fun p => negb (beq (k_type (p_key p)) t)) l.

End Kept.
