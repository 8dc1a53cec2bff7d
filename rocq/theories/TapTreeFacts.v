(** Proofs about the taproot tree codec. *)
From Verif Require Import Base Consensus ConsensusFacts Ext Raw TapTree.
From Coq Require Import Permutation.
Local Open Scope N_scope.

Section Facts.
Context `{X : Ext}.

(** ** Shapes *)

Fixpoint height (t : ttree) : nat :=
  match t with TL _ _ => O | TB l r => S (Nat.max (height l) (height r)) end.

(** Leaves of a shape in depth first order with their depths. *)
Fixpoint dfs (d : nat) (t : ttree) : list (nat * N * bytes) :=
  match t with
  | TL s v => [(d, v, s)]
  | TB l r => dfs (S d) l ++ dfs (S d) r
  end.

Definition leaf_info (l : tapleaf) : nat * N * bytes :=
  (length (tl_branch l), tl_ver l, tl_script l).

Fixpoint max_branch (ls : list tapleaf) : nat :=
  match ls with
  | [] => O
  | l :: r => Nat.max (length (tl_branch l)) (max_branch r)
  end.

Lemma max_branch_app a b : max_branch (a ++ b) = Nat.max (max_branch a) (max_branch b).
Proof. induction a as [|x a IH]; cbn; auto. rewrite IH. lia. Qed.

Lemma push_all_some h ls ls' :
  push_all h ls = Some ls' ->
  map leaf_info ls' = map (fun p => (S (fst (fst p)), snd (fst p), snd p)) (map leaf_info ls)
  /\ (ls <> [] -> max_branch ls' = S (max_branch ls))
  /\ length ls' = length ls
  /\ (max_branch ls < MAX_NODE_COUNT \/ ls = [])%nat.
Proof.
  unfold push_all. destruct (forallb _ ls) eqn:E; [|discriminate]. intros [= <-].
  rewrite forallb_forall in E. repeat split.
  - rewrite !map_map. apply map_ext. intros [s v b]. unfold leaf_info. cbn.
    rewrite app_length. cbn. f_equal. f_equal. lia.
  - intros Hne. clear E. induction ls as [|[s v b] ls IH]; [congruence|].
    destruct ls as [|l2 ls]; [cbn; rewrite app_length; cbn; lia|].
    assert (H : l2 :: ls <> []) by discriminate. specialize (IH H).
    remember (l2 :: ls) as rest. cbn [map max_branch tl_branch]. rewrite IH, app_length. cbn [length]. lia.
  - now rewrite map_length.
  - destruct ls as [|l ls]; [now right|left].
    assert (G : forall xs, (forall x, In x xs -> (length (tl_branch x) <? MAX_NODE_COUNT)%nat = true) ->
                (max_branch xs < MAX_NODE_COUNT)%nat).
    { induction xs as [|x xs IH]; intros H; [unfold MAX_NODE_COUNT; cbn; lia|]. cbn.
      assert ((length (tl_branch x) <? MAX_NODE_COUNT)%nat = true) by (apply H; now left).
      apply Nat.ltb_lt in H0.
      assert (max_branch xs < MAX_NODE_COUNT)%nat by (apply IH; intros; apply H; now right).
      lia. }
    now apply G.
Qed.

Lemma push_all_ok h ls : (max_branch ls < MAX_NODE_COUNT)%nat -> exists ls', push_all h ls = Some ls'.
Proof.
  intros H. unfold push_all.
  assert (E : forallb (fun l => Nat.ltb (length (tl_branch l)) MAX_NODE_COUNT) ls = true).
  { apply forallb_forall. intros x Hx. apply Nat.ltb_lt.
    induction ls as [|l ls IH]; [destruct Hx|]. cbn in H.
    destruct Hx as [->|Hx]; [|apply IH; auto]; lia. }
  rewrite E. eauto.
Qed.

(** Depth-first info of a node. *)
Definition ninfo (n : taptree) := map leaf_info (ni_leaves n).

Definition bump (l : list (nat * N * bytes)) := map (fun p => (S (fst (fst p)), snd (fst p), snd p)) l.

Lemma combine_some a b n :
  ni_leaves a <> [] -> ni_leaves b <> [] ->
  node_combine a b = Some n ->
  (if hash_lt (ni_hash a) (ni_hash b)
   then ninfo n = bump (ninfo a) ++ bump (ninfo b) /\ ni_hash n = tap_node_hash (ni_hash a) (ni_hash b)
   else ninfo n = bump (ninfo b) ++ bump (ninfo a) /\ ni_hash n = tap_node_hash (ni_hash b) (ni_hash a))
  /\ max_branch (ni_leaves n) = S (Nat.max (max_branch (ni_leaves a)) (max_branch (ni_leaves b)))
  /\ ni_leaves n <> []
  /\ (max_branch (ni_leaves n) <= MAX_NODE_COUNT)%nat.
Proof.
  intros Ha Hb H. unfold node_combine in H.
  destruct (hash_lt (ni_hash a) (ni_hash b)) eqn:E.
  - destruct (push_all (ni_hash b) (ni_leaves a)) as [la|] eqn:E1; [|discriminate].
    destruct (push_all (ni_hash a) (ni_leaves b)) as [lb|] eqn:E2; [|discriminate].
    inv H. apply push_all_some in E1 as (I1 & M1 & L1 & B1). apply push_all_some in E2 as (I2 & M2 & L2 & B2).
    unfold ninfo. cbn. rewrite map_app, I1, I2, max_branch_app, M1, M2 by assumption.
    repeat split; auto.
    + destruct (ni_leaves a); [congruence|]. destruct la; [discriminate|]. discriminate.
    + destruct B1 as [B1|B1]; [|congruence]. destruct B2 as [B2|B2]; [|congruence]. lia.
  - destruct (push_all (ni_hash a) (ni_leaves b)) as [lb|] eqn:E2; [|discriminate].
    destruct (push_all (ni_hash b) (ni_leaves a)) as [la|] eqn:E1; [|discriminate].
    inv H. apply push_all_some in E1 as (I1 & M1 & L1 & B1). apply push_all_some in E2 as (I2 & M2 & L2 & B2).
    unfold ninfo. cbn. rewrite map_app, I1, I2, max_branch_app, M1, M2 by assumption.
    repeat split; auto.
    + rewrite Nat.max_comm. reflexivity.
    + destruct (ni_leaves b); [congruence|]. destruct lb; [discriminate|]. discriminate.
    + destruct B1 as [B1|B1]; [|congruence]. destruct B2 as [B2|B2]; [|congruence]. lia.
Qed.

Lemma combine_ok a b :
  (max_branch (ni_leaves a) < MAX_NODE_COUNT)%nat -> (max_branch (ni_leaves b) < MAX_NODE_COUNT)%nat ->
  exists n, node_combine a b = Some n.
Proof.
  intros Ha Hb. unfold node_combine.
  destruct (push_all_ok (ni_hash b) _ Ha) as [la Ea]. destruct (push_all_ok (ni_hash a) _ Hb) as [lb Eb].
  destruct (hash_lt _ _); rewrite Ea, Eb; eauto.
Qed.

Lemma node_of_some t n :
  node_of t = Some n -> ni_leaves n <> [] /\ max_branch (ni_leaves n) = height t
                        /\ (height t <= MAX_NODE_COUNT)%nat.
Proof.
  revert n; induction t as [s v|l IHl r IHr]; intros n H; cbn in H.
  - inv H. cbn. repeat split; try discriminate; auto. unfold MAX_NODE_COUNT. lia.
  - destruct (node_of l) as [nl|]; [|discriminate]. destruct (node_of r) as [nr|]; [|discriminate].
    destruct (IHl nl eq_refl) as (Hl & Ml & _). destruct (IHr nr eq_refl) as (Hr & Mr & _).
    apply combine_some in H as (_ & Hm & Hn & Hb); auto.
    cbn [height]. rewrite Hm, Ml, Mr in *. rewrite (Nat.max_comm (height r)) in *. auto.
Qed.

Lemma node_of_ok t : (height t <= MAX_NODE_COUNT)%nat -> exists n, node_of t = Some n.
Proof.
  induction t as [s v|l IHl r IHr]; intros H; cbn in *; eauto.
  destruct IHl as [nl El]; [lia|]. destruct IHr as [nr Er]; [lia|].
  rewrite El, Er. apply node_of_some in El as (_ & Ml & _). apply node_of_some in Er as (_ & Mr & _).
  apply combine_ok; lia.
Qed.

(** ** Canonical order of the children *)

Fixpoint shash (t : ttree) : bytes :=
  match t with
  | TL s v => tap_leaf_hash s v
  | TB l r => if hash_lt (shash r) (shash l) then tap_node_hash (shash r) (shash l)
              else tap_node_hash (shash l) (shash r)
  end.

Lemma node_of_hash t n : node_of t = Some n -> ni_hash n = shash t.
Proof.
  revert n; induction t as [s v|l IHl r IHr]; intros n H; cbn in H.
  - now inv H.
  - destruct (node_of l) as [nl|] eqn:El; [|discriminate]. destruct (node_of r) as [nr|] eqn:Er; [|discriminate].
    pose proof (node_of_some _ _ El) as (Hl & _). pose proof (node_of_some _ _ Er) as (Hr & _).
    apply combine_some in H as (H & _); auto. cbn.
    rewrite (IHl nl eq_refl), (IHr nr eq_refl) in H.
    destruct (hash_lt (shash r) (shash l)); tauto.
Qed.

Fixpoint can (t : ttree) : ttree :=
  match t with
  | TL s v => TL s v
  | TB l r => if hash_lt (shash r) (shash l) then TB (can r) (can l) else TB (can l) (can r)
  end.

Lemma hash_lt_asym a b : hash_lt a b = true -> hash_lt b a = false.
Proof.
  unfold hash_lt. rewrite (lex_antisym (bkey a) (bkey b)). destruct (lex (bkey a) (bkey b)); cbn; congruence.
Qed.

Lemma hash_lt_total a b : hash_lt a b = false -> hash_lt b a = false -> a = b.
Proof.
  unfold hash_lt. rewrite (lex_antisym (bkey a) (bkey b)).
  destruct (lex (bkey a) (bkey b)) eqn:E; cbn; try congruence.
  intros _ _. apply lex_eq in E. now apply bkey_inj.
Qed.

Lemma shash_comm l r :
  (if hash_lt (shash r) (shash l) then tap_node_hash (shash r) (shash l) else tap_node_hash (shash l) (shash r))
  = (if hash_lt (shash l) (shash r) then tap_node_hash (shash l) (shash r) else tap_node_hash (shash r) (shash l)).
Proof.
  destruct (hash_lt (shash r) (shash l)) eqn:E1, (hash_lt (shash l) (shash r)) eqn:E2; auto.
  - apply hash_lt_asym in E1. congruence.
  - rewrite (hash_lt_total _ _ E1 E2). reflexivity.
Qed.

Lemma shash_can t : shash (can t) = shash t.
Proof.
  induction t as [s v|l IHl r IHr]; auto. cbn.
  destruct (hash_lt (shash r) (shash l)) eqn:E; cbn; rewrite IHl, IHr.
  - rewrite (hash_lt_asym _ _ E). reflexivity.
  - rewrite E. reflexivity.
Qed.

Lemma height_can t : height (can t) = height t.
Proof.
  induction t as [s v|l IHl r IHr]; auto. cbn.
  destruct (hash_lt (shash r) (shash l)); cbn; rewrite IHl, IHr; auto. f_equal. apply Nat.max_comm.
Qed.

Lemma wf_can t : wf_shape t -> wf_shape (can t).
Proof.
  induction t as [s v|l IHl r IHr]; auto. cbn. intros [Hl Hr].
  destruct (hash_lt (shash r) (shash l)); cbn; auto.
Qed.

Lemma bump_dfs d t : bump (dfs d t) = dfs (S d) t.
Proof.
  revert d; induction t as [s v|l IHl r IHr]; intros d; cbn; auto.
  unfold bump in *. now rewrite map_app, IHl, IHr.
Qed.

(** The leaves of a node are the leaves of the canonical shape, in order. *)
Lemma node_of_dfs t n : node_of t = Some n -> ninfo n = dfs 0 (can t).
Proof.
  revert n; induction t as [s v|l IHl r IHr]; intros n H; cbn in H.
  - inv H. reflexivity.
  - destruct (node_of l) as [nl|] eqn:El; [|discriminate]. destruct (node_of r) as [nr|] eqn:Er; [|discriminate].
    pose proof (node_of_some _ _ El) as (Hl & _). pose proof (node_of_some _ _ Er) as (Hr & _).
    apply combine_some in H as (H & _); auto. cbn.
    rewrite (node_of_hash _ _ El), (node_of_hash _ _ Er) in H.
    destruct (hash_lt (shash r) (shash l)); destruct H as [-> _];
      rewrite (IHl nl eq_refl), (IHr nr eq_refl), !bump_dfs; reflexivity.
Qed.

(** ** Inserting a whole subtree *)

Fixpoint insert_leaves (ls : list (nat * N * bytes)) (br : builder) : option builder :=
  match ls with
  | [] => Some br
  | (d, v, s) :: r =>
      match tb_insert d br (leaf_node s v) with
      | None => None
      | Some br' => insert_leaves r br'
      end
  end.

Lemma insert_leaves_app a b br :
  insert_leaves (a ++ b) br
  = match insert_leaves a br with None => None | Some br' => insert_leaves b br' end.
Proof.
  revert br; induction a as [|[[d v] s] a IH]; intros br; cbn; auto.
  destruct (tb_insert d br (leaf_node s v)); auto.
Qed.

Lemma place_short d br n : (length br <= d)%nat ->
  place d br n = br ++ repeat None (d - length br) ++ [Some n].
Proof.
  intros H. unfold place.
  replace (d + 1 - length br)%nat with (d - length br + 1)%nat by lia.
  rewrite repeat_app. cbn [repeat]. rewrite !app_assoc.
  set (P := br ++ repeat None (d - length br)).
  assert (HP : length P = d). { unfold P. rewrite app_length, repeat_length. lia. }
  replace (skipn (d + 1) (P ++ [None])) with (@nil (option taptree)).
  2:{ symmetry. apply skipn_all2. rewrite app_length. cbn. lia. }
  rewrite <- HP at 1. rewrite firstn_app, Nat.sub_diag, firstn_all. cbn. now rewrite app_nil_r.
Qed.

Lemma insert_up_short d br n : (length br <= d)%nat -> insert_up d br n = Some (d, br, n).
Proof.
  intros H. destruct d; cbn [insert_up].
  - destruct (Nat.eqb_spec (length br) (0 + 1)); [lia|reflexivity].
  - destruct (Nat.eqb_spec (length br) (S d + 1)); [lia|reflexivity].
Qed.

Lemma tb_insert_short d br n : (d <= MAX_NODE_COUNT)%nat -> (length br <= d)%nat ->
  tb_insert d br n = Some (br ++ repeat None (d - length br) ++ [Some n]).
Proof.
  intros Hd H. unfold tb_insert.
  destruct (Nat.ltb_spec MAX_NODE_COUNT d); [lia|].
  destruct (Nat.ltb_spec (d + 1) (length br)); [lia|].
  rewrite insert_up_short by assumption. now rewrite place_short.
Qed.

Lemma insert_up_none d br n : length br = S d -> last br None = None -> insert_up d br n = Some (d, br, n).
Proof.
  intros H Hl. destruct d; cbn [insert_up]; rewrite Hl; destruct (Nat.eqb _ _); reflexivity.
Qed.

Lemma place_exact d br n x : length br = d -> place d (br ++ [x]) n = br ++ [Some n].
Proof.
  intros H. unfold place. rewrite app_length. cbn [length].
  replace (d + 1 - (length br + 1))%nat with O by lia. cbn [repeat]. rewrite app_nil_r.
  replace (skipn (d + 1) (br ++ [x])) with (@nil (option taptree)).
  2:{ symmetry. apply skipn_all2. rewrite app_length. cbn. lia. }
  rewrite <- H at 1. rewrite firstn_app, Nat.sub_diag, firstn_all. cbn. now rewrite app_nil_r.
Qed.

Lemma repeat_snoc {A} (x : A) n : repeat x n ++ [x] = x :: repeat x n.
Proof. induction n; cbn; auto. now rewrite IHn. Qed.

Lemma insert_subtree t : forall d br n,
  node_of t = Some n -> (length br <= d + 1)%nat -> (d + height t <= MAX_NODE_COUNT)%nat ->
  insert_leaves (dfs d t) br = tb_insert d br n.
Proof.
  induction t as [s v|l IHl r IHr]; intros d br n Hn Hlen Hd; cbn in Hn.
  - inv Hn. cbn. destruct (tb_insert d br (leaf_node s v)); auto.
  - destruct (node_of l) as [nl|] eqn:El; [|discriminate]. destruct (node_of r) as [nr|] eqn:Er; [|discriminate].
    cbn [dfs height] in *. rewrite insert_leaves_app.
    rewrite (IHl (S d) br nl eq_refl) by lia.
    rewrite tb_insert_short by lia.
    set (P := br ++ repeat None (S d - length br)).
    assert (HP : length P = S d). { unfold P. rewrite app_length, repeat_length. lia. }
    rewrite app_assoc. fold P.
    rewrite (IHr (S d) (P ++ [Some nl]) nr eq_refl).
    2:{ rewrite app_length. cbn. lia. } 2: lia.
    unfold tb_insert. rewrite app_length. cbn [length].
    destruct (Nat.ltb_spec MAX_NODE_COUNT (S d)); [lia|].
    destruct (Nat.ltb_spec MAX_NODE_COUNT d); [lia|].
    destruct (Nat.ltb_spec (S d + 1) (length P + 1)); [lia|].
    destruct (Nat.ltb_spec (d + 1) (length br)); [lia|].
    cbn [insert_up]. rewrite app_length. cbn [length].
    destruct (Nat.eqb_spec (length P + 1) (S d + 1)); [|lia].
    rewrite last_last, removelast_last, Hn.
    destruct (Nat.eq_dec (length br) (S d)) as [E|E].
    + assert (HPb : P = br). { unfold P. rewrite E, Nat.sub_diag. cbn. apply app_nil_r. }
      now rewrite HPb.
    + unfold P. clear HP P e H1.
      replace (S d - length br)%nat with (S (d - length br)) by lia.
      cbn [repeat]. rewrite <- repeat_snoc. rewrite app_assoc.
      set (Q := br ++ repeat None (d - length br)).
      assert (HQ : length Q = d). { unfold Q. rewrite app_length, repeat_length. lia. }
      rewrite insert_up_none by (rewrite ?app_length, ?last_last; cbn; lia || reflexivity).
      rewrite place_exact by assumption.
      rewrite insert_up_short by lia. rewrite place_short by lia.
      unfold Q. now rewrite app_assoc.
Qed.

Lemma insert_tree t n : node_of t = Some n -> insert_leaves (dfs 0 t) [] = Some [Some n].
Proof.
  intros H. pose proof (node_of_some _ _ H) as (_ & _ & Hh).
  rewrite (insert_subtree t 0 [] n H); cbn [length]; try lia.
  rewrite tb_insert_short; cbn [length]; try lia. reflexivity.
Qed.

(** ** The byte level *)

Definition enc_leaf (p : nat * N * bytes) : bytes :=
  n2b (N.of_nat (fst (fst p))) :: n2b (snd (fst p)) :: enc_bytes (snd p).

Definition wf_leaf (p : nat * N * bytes) : Prop :=
  (fst (fst p) <= MAX_NODE_COUNT)%nat /\ snd (fst p) < 256 /\ leaf_version_ok (snd (fst p)) = true /\ wf_vec (snd p).

Lemma ser_taptree_info n : ser_taptree n = enc_all enc_leaf (ninfo n).
Proof. unfold ser_taptree, ninfo, enc_all. rewrite map_map. reflexivity. Qed.

Lemma de_loop_leaves ls : forall fuel br,
  Forall wf_leaf ls -> (length (enc_all enc_leaf ls) < fuel)%nat ->
  de_taptree_loop fuel br (enc_all enc_leaf ls)
  = match insert_leaves ls br with Some br' => Ok br' | None => Err STaproot end.
Proof.
  induction ls as [|[[d v] s] ls IH]; intros fuel br Hwf Hf.
  - destruct fuel; reflexivity.
  - inv Hwf. destruct H1 as (Hd & Hv & Hok & Hs). cbn in Hd, Hv, Hok, Hs.
    rewrite enc_all_cons in *. unfold enc_leaf at 1 in Hf. unfold enc_leaf at 1.
    cbn [fst snd] in *. rewrite <- !app_comm_cons in *.
    destruct fuel as [|f]; [cbn in Hf; lia|]. cbn [de_taptree_loop].
    rewrite dec_bytes_rt by assumption. cbn [map_err bind].
    rewrite b2n_n2b by assumption. rewrite Hok. cbn [negb].
    unfold MAX_NODE_COUNT in Hd.
    rewrite b2n_n2b by lia. rewrite Nat2N.id. cbn [insert_leaves].
    destruct (tb_insert d br (leaf_node s v)); auto.
    apply IH; auto. cbn in Hf. rewrite app_length in Hf. lia.
Qed.

Lemma dfs_wf t : forall d, wf_shape t -> (d + height t <= MAX_NODE_COUNT)%nat -> Forall wf_leaf (dfs d t).
Proof.
  induction t as [s v|l IHl r IHr]; intros d H Hd; cbn in *.
  - destruct H as (? & ? & ?). constructor; [|constructor]. unfold wf_leaf. cbn. repeat split; auto. lia.
  - destruct H. apply Forall_app. split; [apply IHl | apply IHr]; auto; lia.
Qed.

(** Deserializing the serialization of a built tree builds the canonical shape. *)
Lemma de_ser_shape t n n' :
  wf_shape t -> node_of t = Some n -> node_of (can t) = Some n' ->
  de_taptree (ser_taptree n) = Ok n'.
Proof.
  intros Hwf Hn Hn'. pose proof (node_of_some _ _ Hn) as (_ & _ & Hh).
  unfold de_taptree. rewrite ser_taptree_info, (node_of_dfs _ _ Hn).
  rewrite de_loop_leaves.
  - rewrite (insert_tree _ _ Hn'). reflexivity.
  - apply dfs_wf; [now apply wf_can|]. rewrite height_can. lia.
  - lia.
Qed.

(** What the re-read tree has in common with the original one: root hash and leaves. *)
Definition leaf_size (p : nat * N * bytes) : nat := length (enc_leaf p).

Lemma dfs_can_perm t : forall d, Permutation (dfs d (can t)) (dfs d t).
Proof.
  induction t as [s v|l IHl r IHr]; intros d; auto. cbn.
  destruct (hash_lt (shash r) (shash l)); cbn.
  - rewrite Permutation_app_comm. now apply Permutation_app.
  - now apply Permutation_app.
Qed.

Lemma can_can t : Permutation (dfs 0 (can (can t))) (dfs 0 (can t)).
Proof. apply dfs_can_perm. Qed.

Lemma enc_all_perm_len {A} (f : A -> bytes) l1 l2 :
  Permutation l1 l2 -> length (enc_all f l1) = length (enc_all f l2).
Proof.
  induction 1; cbn [enc_all]; auto.
  - rewrite !enc_all_cons, !app_length. lia.
  - rewrite !enc_all_cons, !app_length. lia.
  - congruence.
Qed.

Lemma taptree_roundtrip_shape sh t :
  wf_shape sh -> node_of sh = Some t ->
  exists t', de_taptree (ser_taptree t) = Ok t' /\ ni_hash t' = ni_hash t
             /\ (exists sh', wf_shape sh' /\ node_of sh' = Some t') /\ blen (ser_taptree t') = blen (ser_taptree t)
             /\ Permutation (ninfo t') (ninfo t).
Proof.
  intros Hwf Hn. pose proof (node_of_some _ _ Hn) as (_ & _ & Hh).
  destruct (node_of_ok (can sh)) as [t' Ht']; [now rewrite height_can|].
  assert (HP : Permutation (ninfo t') (ninfo t)).
  { rewrite (node_of_dfs _ _ Hn), (node_of_dfs _ _ Ht'). apply can_can. }
  exists t'. repeat split; auto.
  - now apply de_ser_shape with (t := sh).
  - rewrite (node_of_hash _ _ Ht'), (node_of_hash _ _ Hn). apply shash_can.
  - exists (can sh). split; auto. now apply wf_can.
  - rewrite !ser_taptree_info. unfold blen.
    now rewrite (enc_all_perm_len _ _ _ HP).
Qed.

Lemma taptree_roundtrip t :
  wf_taptree t ->
  exists t', de_taptree (ser_taptree t) = Ok t' /\ ni_hash t' = ni_hash t /\ wf_taptree t'
             /\ Permutation (ninfo t') (ninfo t).
Proof.
  intros [(sh & Hwf & Hn) Hlen]. destruct (taptree_roundtrip_shape _ _ Hwf Hn) as (t' & H1 & H2 & H3 & H4 & H5).
  exists t'. unfold wf_taptree. rewrite H4. auto.
Qed.

(** Without two siblings of equal hash the very same tree is read back. *)
Fixpoint no_tie (t : ttree) : Prop :=
  match t with
  | TL _ _ => True
  | TB l r => no_tie l /\ no_tie r /\ shash l <> shash r
  end.

Lemma node_combine_comm a b : ni_hash a <> ni_hash b -> node_combine a b = node_combine b a.
Proof.
  intros H. unfold node_combine.
  destruct (hash_lt (ni_hash a) (ni_hash b)) eqn:E1, (hash_lt (ni_hash b) (ni_hash a)) eqn:E2; auto.
  - apply hash_lt_asym in E1. congruence.
  - exfalso. apply H. now apply hash_lt_total.
Qed.

Lemma node_of_can t : no_tie t -> node_of (can t) = node_of t.
Proof.
  induction t as [s v|l IHl r IHr]; auto. cbn. intros (Hl & Hr & Hne).
  destruct (hash_lt (shash r) (shash l)); cbn; rewrite IHl, IHr by assumption; auto.
  destruct (node_of l) as [nl|] eqn:El; destruct (node_of r) as [nr|] eqn:Er; auto.
  apply node_combine_comm. rewrite (node_of_hash _ _ El), (node_of_hash _ _ Er). auto.
Qed.

Lemma taptree_roundtrip_exact sh t :
  wf_shape sh -> no_tie sh -> node_of sh = Some t -> de_taptree (ser_taptree t) = Ok t.
Proof.
  intros Hwf Ht Hn. apply de_ser_shape with (t := sh); auto. now rewrite node_of_can.
Qed.

(** ** Everything deserialization returns is a built tree *)

Definition built (n : taptree) : Prop := exists sh, wf_shape sh /\ node_of sh = Some n.

Definition built_br (br : builder) : Prop := Forall (opt_all built) br.

(** Leaves (in any order) stored in a builder. *)
Fixpoint br_info (br : builder) : list (N * bytes) :=
  match br with
  | [] => []
  | None :: r => br_info r
  | Some n :: r => map (fun l => (tl_ver l, tl_script l)) (ni_leaves n) ++ br_info r
  end.

Lemma br_info_app a b : br_info (a ++ b) = br_info a ++ br_info b.
Proof. induction a as [|[n|] a IH]; cbn; auto. now rewrite IH, app_assoc. Qed.

Lemma br_info_none k : br_info (repeat None k) = [].
Proof. induction k; cbn; auto. Qed.

Lemma built_combine a b n : built a -> built b -> node_combine a b = Some n -> built n.
Proof.
  intros (sa & Wa & Na) (sb & Wb & Nb) H. exists (TB sb sa). cbn. now rewrite Na, Nb.
Qed.

Lemma push_all_vs h ls ls' : push_all h ls = Some ls' ->
  map (fun l => (tl_ver l, tl_script l)) ls' = map (fun l => (tl_ver l, tl_script l)) ls.
Proof.
  unfold push_all. destruct (forallb _ _); [|discriminate]. intros [= <-]. rewrite map_map. reflexivity.
Qed.

Lemma combine_vs a b n : node_combine a b = Some n ->
  Permutation (map (fun l => (tl_ver l, tl_script l)) (ni_leaves n))
    (map (fun l => (tl_ver l, tl_script l)) (ni_leaves a) ++ map (fun l => (tl_ver l, tl_script l)) (ni_leaves b)).
Proof.
  unfold node_combine. destruct (hash_lt _ _); intros H.
  - destruct (push_all (ni_hash b) (ni_leaves a)) eqn:E1; [|discriminate].
    destruct (push_all (ni_hash a) (ni_leaves b)) eqn:E2; [|discriminate]. inv H. cbn.
    apply push_all_vs in E1, E2. rewrite map_app, E1, E2. reflexivity.
  - destruct (push_all (ni_hash a) (ni_leaves b)) eqn:E2; [|discriminate].
    destruct (push_all (ni_hash b) (ni_leaves a)) eqn:E1; [|discriminate]. inv H. cbn.
    apply push_all_vs in E1, E2. rewrite map_app, E1, E2. apply Permutation_app_comm.
Qed.

Definition vs (n : taptree) := map (fun l => (tl_ver l, tl_script l)) (ni_leaves n).

Lemma insert_up_built d : forall br n d' br' n',
  built_br br -> built n -> insert_up d br n = Some (d', br', n') ->
  (length br <= d + 1)%nat ->
  built_br br' /\ built n' /\ Permutation (br_info br' ++ vs n') (br_info br ++ vs n)
  /\ (length br' <= d' \/ (length br' = d' + 1 /\ last br' None = None))%nat.
Proof.
  induction d as [|d IH]; intros br n d' br' n' Hbr Hn H Hlen; cbn [insert_up] in H.
  - destruct (Nat.eqb_spec (length br) (0 + 1)).
    + destruct (last br None) eqn:El; [discriminate|]. inv H. auto 6.
    + inv H. repeat split; auto. left. lia.
  - destruct (Nat.eqb_spec (length br) (S d + 1)) as [e|e].
    + destruct (last br None) as [child|] eqn:El.
      * destruct (node_combine n child) as [n1|] eqn:Ec; [|discriminate].
        assert (Hne : br <> []) by (intros ->; cbn in e; lia).
        pose proof (app_removelast_last None Hne) as Hb. rewrite El in Hb.
        rewrite Hb in Hbr. apply Forall_app in Hbr as [Hb1 Hb2]. inv Hb2. cbn in H2.
        assert (Hl : length (removelast br) = S d).
        { rewrite Hb in e. rewrite app_length in e. cbn in e. lia. }
        apply IH in H as (A & B & C & D); auto; [| |lia].
        2:{ eapply built_combine; [exact Hn | exact H2 | exact Ec]. }
        repeat split; auto.
        rewrite C. rewrite Hb at 2. rewrite br_info_app. cbn. rewrite app_nil_r, <- app_assoc.
        apply Permutation_app_head. apply combine_vs in Ec.
        unfold vs. rewrite Ec. apply Permutation_app_comm.
      * inv H. repeat split; auto.
    + inv H. repeat split; auto. left. lia.
Qed.

Lemma tb_insert_built d br n br' :
  built_br br -> built n -> tb_insert d br n = Some br' ->
  built_br br' /\ Permutation (br_info br') (br_info br ++ vs n)
  /\ br' <> [] /\ last br' None <> None.
Proof.
  intros Hbr Hn H. unfold tb_insert in H.
  destruct (Nat.ltb_spec MAX_NODE_COUNT d); [discriminate|].
  destruct (Nat.ltb_spec (d + 1) (length br)); [discriminate|].
  destruct (insert_up d br n) as [[[d1 br1] n1]|] eqn:E; [|discriminate]. inv H.
  apply insert_up_built in E as (A & B & C & D); auto.
  destruct D as [D|[D1 D2]].
  - rewrite place_short by assumption. repeat split.
    + apply Forall_app. split; auto. apply Forall_app. split.
      * apply Forall_forall. intros x Hx. apply repeat_spec in Hx. subst. cbn. auto.
      * repeat constructor; auto.
    + rewrite !br_info_app, br_info_none. cbn. rewrite app_nil_r. exact C.
    + intros Hnil. apply app_eq_nil in Hnil as [_ Hnil]. now apply app_eq_nil in Hnil as [_ Hnil].
    + rewrite app_assoc, last_last. discriminate.
  - assert (Hne : br1 <> []) by (intros ->; cbn in D1; lia).
    pose proof (app_removelast_last None Hne) as Hb. rewrite D2 in Hb.
    assert (Hl : length (removelast br1) = d1).
    { rewrite Hb in D1. rewrite app_length in D1. cbn in D1. lia. }
    rewrite Hb in *. rewrite removelast_last in *.
    rewrite place_exact by assumption.
    rewrite br_info_app in C. cbn in C. rewrite app_nil_r in C.
    apply Forall_app in A as [A _].
    repeat split.
    + apply Forall_app. split; [assumption|]. constructor; [exact B | constructor].
    + rewrite br_info_app. cbn. now rewrite app_nil_r.
    + destruct (removelast br1); discriminate.
    + rewrite last_last. discriminate.
Qed.

Lemma de_loop_built fuel : forall br bs br',
  blen bs < U64 ->
  built_br br -> (br = [] \/ last br None <> None) ->
  de_taptree_loop fuel br bs = Ok br' ->
  built_br br' /\ (br' = [] \/ last br' None <> None)
  /\ exists vss, Permutation (br_info br') (br_info br ++ vss)
     /\ length bs = length (enc_all (fun p => x00 :: x00 :: enc_bytes (snd p)) vss).
Proof.
  induction fuel as [|f IH]; intros br bs br' Hb Hbr Hlast H; destruct bs as [|dep r1]; cbn in H.
  - inv H. repeat split; auto. exists []. rewrite app_nil_r. auto.
  - discriminate.
  - inv H. repeat split; auto. exists []. rewrite app_nil_r. auto.
  - destruct r1 as [|ver r2]; [discriminate|]. binds H. apply map_err_ok in Hx.
    destruct (leaf_version_ok (b2n ver)) eqn:Ev; cbn [negb] in H; [|discriminate].
    destruct (tb_insert _ br _) as [br1|] eqn:Ei; [|discriminate].
    apply dec_bytes_canon in Hx as [-> Hs].
    apply tb_insert_built in Ei as (A & P & C & D); auto.
    2:{ exists (TL b (b2n ver)). cbn. repeat split; auto. apply b2n_lt. }
    rewrite !blen_cons, blen_app in Hb.
    apply IH in H as (E & F & vss & G & I); auto; [|lia].
    repeat split; auto. exists ((b2n ver, b) :: vss). split.
    + rewrite G. cbn in P. rewrite P, <- app_assoc. reflexivity.
    + rewrite enc_all_cons. cbn [app length snd]. rewrite !app_length. rewrite I. reflexivity.
Qed.

Lemma de_taptree_shape bs t : blen bs < U64 -> de_taptree bs = Ok t ->
  (exists sh, wf_shape sh /\ node_of sh = Some t) /\ blen (ser_taptree t) = blen bs.
Proof.
  intros Hb H. unfold de_taptree in H. binds H.
  apply de_loop_built in Hx as (A & B & vss & C & D); auto; [|constructor].
  unfold tb_finish in H. destruct x as [|[n|] [|y x]]; try discriminate. inv H.
  inv A. cbn in H1. cbn in C. rewrite app_nil_r in C.
  assert (E : length (ser_taptree t) = length bs).
  { rewrite D. unfold ser_taptree.
    rewrite <- (enc_all_perm_len _ _ _ C).
    clear. induction (ni_leaves t) as [|l ls IH]; auto. cbn [map].
    rewrite !enc_all_cons, !app_length, IH. reflexivity. }
  unfold blen in *. rewrite E. auto.
Qed.

Lemma de_taptree_wf bs t : blen bs <= MAX_VALUE -> de_taptree bs = Ok t -> wf_taptree t /\ blen (ser_taptree t) = blen bs.
Proof.
  intros Hb H. apply de_taptree_shape in H as [H1 H2]; [|unfold MAX_VALUE, U64 in *; lia].
  unfold wf_taptree. rewrite H2. auto.
Qed.

Lemma de_taptree_nopanic bs : de_taptree bs <> Panic.
Proof.
  unfold de_taptree.
  assert (L : forall fuel br bs, de_taptree_loop fuel br bs <> Panic).
  { induction fuel as [|f IH]; intros br bs'; destruct bs' as [|dep [|ver r2]]; cbn [de_taptree_loop]; try discriminate.
    pose proof (dec_bytes_nopanic r2). destruct (dec_bytes r2) as [[s r3]| |]; cbn; try congruence.
    destruct (negb _); [discriminate|]. destruct (tb_insert _ _ _); [apply IH | discriminate]. }
  assert (K : forall fuel br bs br', (br = [] \/ last br None <> None) ->
            de_taptree_loop fuel br bs = Ok br' -> br' = [] \/ last br' None <> None).
  { clear. induction fuel as [|f IH]; intros br bs br' Hl H; destruct bs as [|dep [|ver r2]]; cbn in H;
      try discriminate; try (now inv H).
    binds H. destruct (negb _); [discriminate|].
    destruct (tb_insert _ _ _) as [br1|] eqn:E; [|discriminate].
    eapply IH; [|exact H]. right.
    unfold tb_insert in E. destruct (Nat.ltb _ _); [discriminate|]. destruct (Nat.ltb_spec (N.to_nat (b2n dep) + 1) (length br)); [discriminate|].
    destruct (insert_up _ _ _) as [[[d1 br1'] n1]|] eqn:Eu; [|discriminate]. inv E.
    assert (G : forall d br n d' br' n', (length br <= d + 1)%nat -> insert_up d br n = Some (d', br', n') -> (length br' <= d' + 1)%nat).
    { clear. induction d as [|d IHd]; intros br n d' br' n' Hlen H; cbn [insert_up] in H.
      - destruct (Nat.eqb _ _); [destruct (last br None); [discriminate|]|]; now inv H.
      - destruct (Nat.eqb_spec (length br) (S d + 1)).
        + destruct (last br None).
          * destruct (node_combine _ _); [|discriminate]. eapply IHd; [|exact H].
            destruct br; [cbn in e; lia|]. 
            assert (Hne : o :: br <> []) by discriminate.
            pose proof (f_equal (@length _) (app_removelast_last None Hne)) as Q.
            rewrite app_length in Q. cbn [length] in Q. cbn [length] in e. lia.
          * now inv H.
        + now inv H. }
    apply G in Eu; [|lia]. unfold place.
    assert (S1 : skipn (d1 + 1) (br1' ++ repeat None (d1 + 1 - length br1')) = []).
    { apply skipn_all2. rewrite app_length, repeat_length. lia. }
    rewrite S1, last_last. discriminate. }
  pose proof (L (S (length bs)) [] bs) as HL.
  destruct (de_taptree_loop (S (length bs)) [] bs) as [br| |] eqn:E; cbn; try congruence.
  apply K in E; [|now left]. destruct E as [->|E]; [discriminate|].
  destruct br as [|[n|] [|y br]]; cbn in *; congruence.
Qed.

End Facts.
