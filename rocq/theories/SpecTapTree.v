(** Trees of scripts as in BIP-341 and their form in a PSBT as in BIP-371, without reference
    to the builder of the code. *)
From Verif Require Import Base Consensus Ext TapTree SpecCodec SpecTx.
Local Open Scope N_scope.

(** BIP-371: a leaf is its depth, its leaf version and its script; the leaves come in
    depth first order. *)
Definition leaf_wire (l : nat * N * bytes) (b : bytes) : Prop :=
  let '(d, v, s) := l in
  exists c, string_wire s c /\ b = n2b (N.of_nat d) :: n2b v :: c.
Fixpoint leaves_at (d : nat) (t : ttree) : list (nat * N * bytes) :=
  match t with
  | TL s v => [(d, v, s)]
  | TB l r => leaves_at (1 + d) l ++ leaves_at (1 + d) r
  end.
Definition tree_wire (t : ttree) (b : bytes) : Prop :=
  exists bs, Forall2 leaf_wire (leaves_at 0 t) bs /\ b = concat bs.

(** BIP-341: depths up to 128, leaf versions are even bytes other than the annex tag 0x50;
    script lengths fit in the length prefix. *)
Definition leaf_allowed (l : nat * N * bytes) : Prop :=
  let '(d, v, s) := l in (d <= 128)%nat /\ v < 256 /\ v mod 2 = 0 /\ v <> 80 /\ blen s < 2 ^ 64.
Definition tree_allowed (t : ttree) : Prop := Forall leaf_allowed (leaves_at 0 t).

(** The same tree up to the order of children. *)
Inductive swapped : ttree -> ttree -> Prop :=
| SwLeaf s v : swapped (TL s v) (TL s v)
| SwKeep l l' r r' : swapped l l' -> swapped r r' -> swapped (TB l r) (TB l' r')
| SwSwap l l' r r' : swapped l l' -> swapped r r' -> swapped (TB l r) (TB r' l').

Section Hashes.
Context `{X : Ext}.

(** BIP-341: the smaller of two hashes goes first. *)
Definition branch_hash (a b : bytes) : bytes :=
  match lex (bkey a) (bkey b) with Lt => tap_node_hash a b | _ => tap_node_hash b a end.
Fixpoint merkle_root (t : ttree) : bytes :=
  match t with
  | TL s v => tap_leaf_hash s v
  | TB l r => branch_hash (merkle_root l) (merkle_root r)
  end.

(** BIP-341: a leaf belongs to a root if hashing it with the elements of its path in turn
    gives the root. *)
Definition proves (root : bytes) (l : tapleaf) : Prop :=
  fold_left branch_hash (tl_branch l) (tap_leaf_hash (tl_script l) (tl_ver l)) = root.

End Hashes.
