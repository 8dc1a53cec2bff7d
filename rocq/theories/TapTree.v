(** Model of rust-bitcoin's taproot tree builder as used by the [TapTree] codec of
    src/serialize.rs:327-370.  rust-bitcoin 0.32 [taproot/mod.rs] is external; the
    hash functions stay abstract ([Ext]). *)
From Verif Require Import Base Consensus Ext Raw.
Local Open Scope N_scope.

Section TapTree.
Context `{X : Ext}.

(** [LeafVersion::from_consensus] accepts the version byte (src/serialize.rs:303, 363):
    even and different from the annex prefix 0x50. *)
Definition leaf_version_ok (v : N) : bool := (v mod 2 =? 0) && negb (v =? 80).

(** [LeafNode] with a script leaf: script, version, merkle branch (leaf to root). *)
Record tapleaf := TapLeaf { tl_script : bytes; tl_ver : N; tl_branch : list bytes }.
(** [NodeInfo] without hidden nodes (the codec never creates any); [TapTree] wraps one. *)
Record taptree := NodeInfo { ni_hash : bytes; ni_leaves : list tapleaf }.

(** [TAPROOT_CONTROL_MAX_NODE_COUNT]. *)
Definition MAX_NODE_COUNT : nat := 128.

(** [NodeInfo::new_leaf_with_ver]. *)
Definition leaf_node (script : bytes) (ver : N) : taptree :=
  NodeInfo (tap_leaf_hash script ver) [TapLeaf script ver []].

(** Hash order [a < b]. *)
Definition hash_lt (a b : bytes) : bool :=
  match lex (bkey a) (bkey b) with Lt => true | _ => false end.

(** [TaprootMerkleBranch::push] on every leaf; an error if a branch is already full. *)
Definition push_all (h : bytes) (ls : list tapleaf) : option (list tapleaf) :=
  if forallb (fun l => Nat.ltb (length (tl_branch l)) MAX_NODE_COUNT) ls
  then Some (map (fun l => TapLeaf (tl_script l) (tl_ver l) (tl_branch l ++ [h])) ls)
  else None.

(** [NodeInfo::combine]: the child with the smaller hash comes first (the second
    argument on a tie). *)
Definition node_combine (a b : taptree) : option taptree :=
  let (x, y) := if hash_lt (ni_hash a) (ni_hash b) then (a, b) else (b, a) in
  match push_all (ni_hash y) (ni_leaves x), push_all (ni_hash x) (ni_leaves y) with
  | Some lx, Some ly => Some (NodeInfo (tap_node_hash (ni_hash x) (ni_hash y)) (lx ++ ly))
  | _, _ => None
  end.

(** [TaprootBuilder]: one optional node per depth. *)
Definition builder := list (option taptree).

(** The [while] loop of [TaprootBuilder::insert]: combine with the pending node of
    the same depth; [None] is an error (over-complete tree, branch too long). *)
Fixpoint insert_up (depth : nat) (br : builder) (node : taptree)
  : option (nat * builder * taptree) :=
  if Nat.eqb (length br) (depth + 1) then
    match last br None with
    | None => Some (depth, br, node)
    | Some child =>
        match depth with
        | O => None
        | S d =>
            match node_combine node child with
            | Some node' => insert_up d (removelast br) node'
            | None => None
            end
        end
    end
  else Some (depth, br, node).

(** [branch.extend(None...)] up to length [depth + 1], then [branch[depth] = Some(node)]. *)
Definition place (depth : nat) (br : builder) (node : taptree) : builder :=
  let br' := br ++ repeat None (depth + 1 - length br) in
  firstn depth br' ++ Some node :: skipn (depth + 1) br'.

(** [TaprootBuilder::insert]. *)
Definition tb_insert (depth : nat) (br : builder) (node : taptree) : option builder :=
  if Nat.ltb MAX_NODE_COUNT depth then None
  else if Nat.ltb (depth + 1) (length br) then None
  else
    match insert_up depth br node with
    | Some (d, br', node') => Some (place d br' node')
    | None => None
    end.

(** [TapTree::try_from(TaprootBuilder)] ([try_into_node_info]); the [expect] on an
    empty slot is a [Panic]. *)
Definition tb_finish (br : builder) : res serr taptree :=
  match br with
  | [Some n] => Ok n
  | [None] => Panic
  | _ => Err STapTree
  end.

(** src/serialize.rs:338-346: one leaf is depth, version, script. *)
Definition ser_leaf (l : tapleaf) : bytes :=
  n2b (N.of_nat (length (tl_branch l))) :: n2b (tl_ver l) :: enc_bytes (tl_script l).

(** src/serialize.rs:327-349 [Serialize for TapTree]. *)
Definition ser_taptree (t : taptree) : bytes := enc_all ser_leaf (ni_leaves t).

(** src/serialize.rs:355-367, the loop; fuel [S (length bs)] suffices because each
    round consumes bytes. *)
Fixpoint de_taptree_loop (fuel : nat) (br : builder) (bs : bytes) : res serr builder :=
  match bs with
  | [] => Ok br
  | depth :: r1 =>
      match fuel with
      | O => Err STaproot
      | S f =>
          match r1 with
          | [] => Err STaproot
          | version :: r2 =>
              '(script, r3) <- map_err SConsensusEncoding (dec_bytes r2) ;;
              if negb (leaf_version_ok (b2n version)) then Err SInvalidLeafVersion
              else
                match tb_insert (N.to_nat (b2n depth)) br (leaf_node script (b2n version)) with
                | None => Err STaproot
                | Some br' => de_taptree_loop f br' r3
                end
          end
      end
  end.

(** src/serialize.rs:351-370 [Deserialize for TapTree]. *)
Definition de_taptree (bs : bytes) : res serr taptree :=
  br <- de_taptree_loop (S (length bs)) [] bs ;;
  tb_finish br.

(** ** Trees that can be built *)

(** The shape of a tree of scripts. *)
Inductive ttree :=
| TL (script : bytes) (ver : N)
| TB (l r : ttree).

(** The node information of a shape: every [TapTree] of the crate arises this way. *)
Fixpoint node_of (t : ttree) : option taptree :=
  match t with
  | TL s v => Some (leaf_node s v)
  | TB l r =>
      match node_of l, node_of r with
      | Some nl, Some nr => node_combine nr nl
      | _, _ => None
      end
  end.

(** Scripts fit in memory, versions are leaf versions. *)
Fixpoint wf_shape (t : ttree) : Prop :=
  match t with
  | TL s v => wf_vec s /\ v < 256 /\ leaf_version_ok v = true
  | TB l r => wf_shape l /\ wf_shape r
  end.

(** A [TapTree] value of the crate. *)
Definition wf_taptree (t : taptree) : Prop :=
  (exists sh, wf_shape sh /\ node_of sh = Some t) /\ blen (ser_taptree t) <= MAX_VALUE.

End TapTree.
