(** C123: taproot trees are read from exactly the listings of BIP-371 and hashed as BIP-341 says. *)
From Coq Require Import Permutation.
From Verif Require Import Base OMap Consensus ConsensusFacts Ext ExtInstance Raw TapTree TapTreeFacts SpecCodec SpecTx SpecTapTree TapTreeWireFacts.
Local Open Scope N_scope.

(** Used by the examples only; the theorems bind their own. *)
#[local] Existing Instance toy | 100.

(** An accepted string lists the leaves of exactly one tree; the root is that of the tree,
    the leaves are those of the tree, and each has a path that proves it. *)
Theorem C123_read : forall (X : Ext) bs t, de_taptree bs = Ok t ->
  exists sh, tree_allowed sh /\ tree_wire sh bs
    /\ (forall sh', tree_allowed sh' -> tree_wire sh' bs -> sh' = sh)
    /\ ni_hash t = merkle_root sh
    /\ Permutation (map (fun l => (length (tl_branch l), tl_ver l, tl_script l)) (ni_leaves t)) (leaves_at 0 sh)
    /\ Forall (proves (ni_hash t)) (ni_leaves t).
Proof.
  intros X bs t H. apply de_taptree_node in H as (sh & W & N & T). exists sh. split; [exact W|]. split; [exact T|].
  split; [intros sh' W' T'; exact (tree_wire_inj _ _ _ W' W T' T)|].
  split; [rewrite merkle_shash; now apply node_of_hash|]. split; [|exact (node_proves _ _ N)].
  change (map _ (ni_leaves t)) with (ninfo t). rewrite (node_of_dfs _ _ N), (leaves_dfs sh 0). apply dfs_can_perm.
Qed.
Print Assumptions C123_read.

(** Every tree that BIP-341 allows is read from its listing. *)
Theorem C123_accepted : forall (X : Ext) sh bs, tree_allowed sh -> tree_wire sh bs ->
  exists t, de_taptree bs = Ok t.
Proof.
  intros X sh bs W T. pose proof W as W'. apply allowed_wf in W' as [_ Hh]. destruct (node_of_ok _ Hh) as [t N]. exists t.
  now apply (node_de_taptree sh).
Qed.
Print Assumptions C123_accepted.

(** What is written afterwards lists the same tree, up to the order of children, which
    BIP-341 does not distinguish. *)
Theorem C123_written : forall (X : Ext) bs t sh, de_taptree bs = Ok t -> tree_allowed sh -> tree_wire sh bs ->
  exists sh', swapped sh sh' /\ tree_wire sh' (ser_taptree t) /\ merkle_root sh' = merkle_root sh.
Proof.
  intros X bs t sh H W T. apply de_taptree_node in H as (sh0 & W0 & N & T0).
  pose proof (tree_wire_inj _ _ _ W W0 T T0) as ->. exists (can sh0). split; [apply can_swapped|].
  split; [now apply ser_taptree_wire|]. rewrite !merkle_shash. apply shash_can.
Qed.
Print Assumptions C123_written.
Theorem C123_order : forall (X : Ext) sh sh', swapped sh sh' -> merkle_root sh' = merkle_root sh.
Proof.
  intros X sh sh' H. induction H as [s v|l l' r r' _ IH1 _ IH2|l l' r r' _ IH1 _ IH2]; cbn [merkle_root].
  - reflexivity.
  - now rewrite IH1, IH2.
  - rewrite IH1, IH2. apply branch_hash_comm.
Qed.
Print Assumptions C123_order.

(** Whatever is not the listing of a tree is refused, e.g. a leaf at a depth that leaves
    no sibling for the one before. *)
Theorem C123_refused : forall (X : Ext) bs,
  (forall sh, tree_allowed sh -> ~ tree_wire sh bs) -> exists e, de_taptree bs = Err e.
Proof.
  intros X bs H. destruct (de_taptree bs) as [t|e|] eqn:E; [|eauto|].
  - apply de_taptree_node in E as (sh & W & _ & T). exfalso. exact (H sh W T).
  - exfalso. exact (de_taptree_nopanic _ E).
Qed.
Print Assumptions C123_refused.

Example C123_example :
  let sh := TB (TB (TL [x53] 192) (TL [x51] 192)) (TL [x52; x52] 194) in
  let bs := [x02; xc0; x01; x53; x02; xc0; x01; x51; x01; xc2; x02; x52; x52] in
  tree_allowed sh /\ tree_wire sh bs
  /\ (exists t, @de_taptree toy bs = Ok t /\ length (ni_leaves t) = 3%nat)
  /\ (exists e, @de_taptree toy [x02; xc0; x01; x53; x01; xc0; x01; x51] = Err e).
Proof.
  assert (W : tree_allowed (TB (TB (TL [x53] 192) (TL [x51] 192)) (TL [x52; x52] 194))).
  { apply allowed_wf. split; [cbn; unfold wf_vec; repeat split; vm_compute; reflexivity|]. vm_compute. repeat constructor. }
  split; [exact W|]. split; [apply tree_wire_iff; [exact W|vm_compute; reflexivity]|].
  split; eexists; [split|]; vm_compute; reflexivity.
Qed.
