(** Facts about the updater of a v0 PSBT (V0Update.v). *)
From Coq Require Import Sorted Permutation.
From Verif Require Import Base OMap Consensus Ext Raw TapTree TapTreeFacts SpecCodec Serialize SerializeFacts MapCodec V2Sign SpecSign
  V2Finalize V2RolesFacts V0Input V0Output V0Psbt SpecExtract0 V0Sign SpecSign0 V0Finalize V0Update SpecUpdate0.
Local Open Scope N_scope.

(** ** Derived keys *)

Definition forget (k : ddkey) : dkey := DKey (Some (fst k)) (snd k).

Lemma forget_inj a b : forget a = forget b -> a = b.
Proof. destruct a, b. unfold forget. cbn [fst snd]. intros H. now injection H as -> ->. Qed.
Lemma derive_key_ok k k' : derive_key k = Ok k' <-> k = forget k'.
Proof.
  destruct k as [[pk|] src]; unfold derive_key, forget; cbn [dk_pub dk_source ok_or bind].
  - split; [intros H; injection H as <-; reflexivity|]. intros H. destruct k' as [pk' src']. cbn [fst snd] in H. now injection H as -> ->.
  - split; [discriminate|]. intros H. discriminate.
Qed.
Lemma derive_keys_ok l : forall l', derive_keys l = Ok l' <-> l = map forget l'.
Proof.
  induction l as [|k r IH]; intros l'; cbn [derive_keys].
  - split; [intros H; injection H as <-; reflexivity|]. destruct l'; [reflexivity|discriminate].
  - destruct (derive_key k) as [k0|e|] eqn:Ek; cbn [bind].
    + destruct (derive_keys r) as [r0|e|] eqn:Er; cbn [bind].
      * split.
        -- intros H. injection H as <-. cbn [map]. rewrite <- (proj1 (derive_key_ok k k0) Ek). now rewrite <- (proj1 (IH r0) eq_refl).
        -- destruct l' as [|k1 r1]; [discriminate|]. intros H. injection H as H1 H2. apply derive_key_ok in H1. rewrite H1 in Ek. injection Ek as ->.
           apply IH in H2. now injection H2 as ->.
      * split; [discriminate|]. destruct l' as [|k1 r1]; [discriminate|]. intros H. injection H as _ H2. apply IH in H2. discriminate.
      * split; [discriminate|]. destruct l' as [|k1 r1]; [discriminate|]. intros H. injection H as _ H2. apply IH in H2. discriminate.
    + split; [discriminate|]. destruct l' as [|k1 r1]; [discriminate|]. intros H. injection H as H1 _. apply derive_key_ok in H1. congruence.
    + split; [discriminate|]. destruct l' as [|k1 r1]; [discriminate|]. intros H. injection H as H1 _. apply derive_key_ok in H1. congruence.
Qed.
Lemma derive_key_cases k : (exists k', derive_key k = Ok k') \/ derive_key k = Err HardenedChild /\ dk_pub k = None.
Proof. destruct k as [[pk|] src]; [left; eexists; reflexivity|now right]. Qed.
Lemma derive_keys_cases l : (exists l', derive_keys l = Ok l') \/ derive_keys l = Err HardenedChild /\ exists k, In k l /\ dk_pub k = None.
Proof.
  induction l as [|k r IH]; cbn [derive_keys]; [eauto|].
  destruct (derive_key_cases k) as [[k' E]|[E N]]; rewrite E; cbn [bind].
  - destruct IH as [[r' E']|[E' (k0 & H1 & H2)]]; rewrite E'; cbn [bind]; [eauto|]. right. split; [reflexivity|]. exists k0. split; [now right|assumption].
  - right. split; [reflexivity|]. exists k. split; [now left|assumption].
Qed.

Lemma derive_tree_ok t : forall t', derive_tree t = Ok t' <-> t = tree_map forget t'.
Proof.
  induction t as [[s keys]|l IHl r IHr]; intros t'; cbn [derive_tree lf_keys lf_script].
  - destruct (derive_keys keys) as [k0|e|] eqn:Ek; cbn [bind].
    + split.
      * intros H. injection H as <-. cbn [tree_map lf_script lf_keys]. now rewrite <- (proj1 (derive_keys_ok keys k0) Ek).
      * destruct t' as [[s1 k1]|]; [|discriminate]. cbn [tree_map lf_script lf_keys]. intros H. injection H as -> H.
        apply derive_keys_ok in H. rewrite H in Ek. now injection Ek as ->.
    + split; [discriminate|]. destruct t' as [[s1 k1]|]; [|discriminate]. cbn [tree_map lf_script lf_keys]. intros H. injection H as -> H.
      apply derive_keys_ok in H. congruence.
    + split; [discriminate|]. destruct t' as [[s1 k1]|]; [|discriminate]. cbn [tree_map lf_script lf_keys]. intros H. injection H as -> H.
      apply derive_keys_ok in H. congruence.
  - split.
    + intros H. destruct (derive_tree l) as [l0|e|]; cbn [bind] in H; try discriminate.
      destruct (derive_tree r) as [r0|e|]; cbn [bind] in H; try discriminate. injection H as <-. cbn [tree_map].
      now rewrite <- (proj1 (IHl l0) eq_refl), <- (proj1 (IHr r0) eq_refl).
    + destruct t' as [|l1 r1]; [discriminate|]. cbn [tree_map]. intros H. injection H as H1 H2. apply IHl in H1. apply IHr in H2.
      now rewrite H1, H2.
Qed.
Lemma derive_tree_cases t : (exists t', derive_tree t = Ok t')
  \/ derive_tree t = Err HardenedChild /\ exists k, In k (concat (map lf_keys (leaves t))) /\ dk_pub k = None.
Proof.
  induction t as [[s keys]|l IHl r IHr]; cbn [derive_tree lf_keys lf_script leaves map concat].
  - rewrite app_nil_r. destruct (derive_keys_cases keys) as [[k E]|[E H]]; rewrite E; cbn [bind]; eauto.
  - rewrite map_app, concat_app. destruct IHl as [[l' E]|[E (k & H1 & H2)]]; rewrite E; cbn [bind].
    + destruct IHr as [[r' E']|[E' (k & H1 & H2)]]; rewrite E'; cbn [bind]; [eauto|]. right. split; [reflexivity|]. exists k. rewrite in_app_iff. auto.
    + right. split; [reflexivity|]. exists k. rewrite in_app_iff. auto.
Qed.

Lemma derive_desc_ok d d' : derive_desc d = Ok d' <-> derives d d'.
Proof.
  unfold derives. change (fun k : ddkey => DKey (Some (fst k)) (snd k)) with forget.
  destruct d as [keys s|k|k|keys s|keys s|k|keys s|k tree]; cbn [derive_desc].
  1,4,5,7: (destruct (derive_keys keys) as [k0|e|] eqn:Ek; cbn [bind];
    [ apply derive_keys_ok in Ek; subst keys; split;
      [ intros H; injection H as <-; reflexivity
      | destruct d'; try discriminate; cbn [descr_map]; intros H; injection H as H1 H2; subst s;
        apply derive_keys_ok in H1; rewrite (proj2 (derive_keys_ok _ k0) eq_refl) in H1; injection H1 as ->; reflexivity ]
    | split; [discriminate|]; destruct d'; try discriminate; cbn [descr_map]; intros H; injection H as H1 H2;
      apply derive_keys_ok in H1; congruence .. ]).
  1,2,3: (destruct (derive_key k) as [k0|e|] eqn:Ek; cbn [bind];
    [ apply derive_key_ok in Ek; subst k; split;
      [ intros H; injection H as <-; reflexivity
      | destruct d'; try discriminate; cbn [descr_map]; intros H; injection H as H1 H2; f_equal; f_equal;
        apply forget_inj; unfold forget; congruence ]
    | split; [discriminate|]; destruct d'; try discriminate; cbn [descr_map]; intros H; injection H as H1;
      apply derive_key_ok in H1; congruence .. ]).
  destruct (derive_key k) as [k0|e|] eqn:Ek; cbn [bind];
    [|split; [discriminate|]; destruct d'; try discriminate; cbn [descr_map]; intros H; injection H as H1 H2; apply derive_key_ok in H1; congruence ..].
  apply derive_key_ok in Ek. subst k. destruct tree as [t|]; [destruct (derive_tree t) as [t0|e|] eqn:Et|]; cbn [bind].
  - apply derive_tree_ok in Et. subst t. split; [intros H; injection H as <-; reflexivity|]. destruct d' as [| | | | | | |k1 [t1|]]; try discriminate. cbn [descr_map option_map].
    intros H. injection H as H1 H2 H3. pose proof (proj2 (derive_tree_ok _ _) H3) as E. rewrite (proj2 (derive_tree_ok _ t0) eq_refl) in E. injection E as <-.
    f_equal. f_equal. apply forget_inj. unfold forget. congruence.
  - split; [discriminate|]. destruct d' as [| | | | | | |k1 [t1|]]; try discriminate. cbn [descr_map option_map].
    intros H. injection H as _ _ H2. apply derive_tree_ok in H2. congruence.
  - split; [discriminate|]. destruct d' as [| | | | | | |k1 [t1|]]; try discriminate. cbn [descr_map option_map].
    intros H. injection H as _ _ H2. apply derive_tree_ok in H2. congruence.
  - split; [intros H; injection H as <-; reflexivity|]. destruct d' as [| | | | | | |k1 [t1|]]; try discriminate. cbn [descr_map option_map].
    intros H. injection H as H1 H2. f_equal. f_equal. apply forget_inj. unfold forget. congruence.
Qed.
Lemma derive_desc_cases d : (exists d', derive_desc d = Ok d')
  \/ derive_desc d = Err HardenedChild /\ exists k, In k (all_keys d) /\ dk_pub k = None.
Proof.
  destruct d as [keys s|k|k|keys s|keys s|k|keys s|k tree]; cbn [derive_desc all_keys];
    try (destruct (derive_keys_cases keys) as [[k' E]|[E H]]; rewrite E; cbn [bind]; eauto; fail).
  all: destruct (derive_key_cases k) as [[k' E]|[E H]]; rewrite E; cbn [bind]; eauto 6 using in_eq.
  destruct tree as [t|]; cbn [bind tr_scripts]; [|eauto].
  destruct (derive_tree_cases t) as [[t' E']|[E' (k0 & H1 & H2)]]; rewrite E'; cbn [bind]; [eauto|].
  right. split; [reflexivity|]. exists k0. split; [now right|assumption].
Qed.
Lemma all_keys_map {K L} (g : K -> L) d : all_keys (descr_map g d) = map g (all_keys d).
Proof.
  assert (G : forall t, concat (map lf_keys (leaves (tree_map g t))) = map g (concat (map lf_keys (leaves t)))).
  { induction t as [[s keys]|l IHl r IHr]; cbn [tree_map leaves map concat lf_keys]; [now rewrite !app_nil_r|].
    now rewrite !map_app, !concat_app, map_app, IHl, IHr. }
  destruct d as [| | | | | | |k [t|]]; cbn [descr_map all_keys option_map tr_scripts map concat]; try reflexivity. now rewrite G.
Qed.
(** A descriptor has one derived descriptor, or a key without one. *)
Lemma derives_fun d d1 d2 : derives d d1 -> derives d d2 -> d1 = d2.
Proof. intros H1 H2. apply derive_desc_ok in H1, H2. rewrite H1 in H2. now injection H2. Qed.
Lemma derives_no_hardened d d' k : derives d d' -> In k (all_keys d) -> dk_pub k <> None.
Proof.
  unfold derives. intros -> H. rewrite all_keys_map in H. apply in_map_iff in H as (k' & <- & _). discriminate.
Qed.

(** ** Trees *)

Fixpoint shape {K} (t : dtree K) : ttree :=
  match t with DLeaf l => TL (lf_script l) 192 | DNode l r => TB (shape l) (shape r) end.

Lemma height_shape {K} (t : dtree K) : height (shape t) = depth t.
Proof. induction t as [|l IHl r IHr]; cbn [shape height depth]; congruence. Qed.

Section Trees.
Context `{X : Ext}.

Lemma add_leaves_insert {K} (l : list (nat * dleaf K)) : forall br,
  add_leaves l br = match insert_leaves (map (fun e => (fst e, 192, lf_script (snd e))) l) br with Some b => Ok b | None => Panic end.
Proof.
  induction l as [|[d lf] r IH]; intros br; cbn [add_leaves map insert_leaves fst snd]; [reflexivity|].
  unfold add_leaf, TAPSCRIPT. destruct (tb_insert d br (leaf_node (lf_script lf) 192)); cbn [expect bind]; [apply IH|reflexivity].
Qed.
Lemma leaves_dfs {K} (t : dtree K) : forall d, map (fun e => (fst e, 192, lf_script (snd e))) (dtree_leaves d t) = dfs d (shape t).
Proof. induction t as [l|l IHl r IHr]; intros d; cbn [dtree_leaves shape dfs map fst snd]; [reflexivity|]. now rewrite map_app, IHl, IHr. Qed.
Lemma leaves_snd {K} (t : dtree K) : forall d, map snd (dtree_leaves d t) = leaves t.
Proof. induction t as [l|l IHl r IHr]; intros d; cbn [dtree_leaves leaves map snd]; [reflexivity|]. now rewrite map_app, IHl, IHr. Qed.
Lemma tr_leaves_snd {K} (tree : option (dtree K)) : map snd (tr_leaves tree) = tr_scripts tree.
Proof. destruct tree; cbn [tr_leaves tr_scripts]; [apply leaves_snd|reflexivity]. Qed.

Lemma insert_too_deep ls : forall br, (exists d v s, In (d, v, s) ls /\ (MAX_NODE_COUNT < d)%nat) -> insert_leaves ls br = None.
Proof.
  induction ls as [|[[d0 v0] s0] r IH]; intros br (d & v & s & Hin & Hd); [destruct Hin|]. cbn [insert_leaves].
  destruct Hin as [E|Hin].
  - injection E as -> -> ->. unfold tb_insert. now rewrite (proj2 (Nat.ltb_lt _ _) Hd).
  - destruct (tb_insert d0 br (leaf_node s0 v0)); [|reflexivity]. apply IH. eauto.
Qed.
Lemma dfs_deep t : forall d, exists v s, In ((d + height t)%nat, v, s) (dfs d t).
Proof.
  induction t as [s v|l IHl r IHr]; intros d; cbn [height dfs].
  - exists v, s. left. f_equal. f_equal. lia.
  - destruct (Nat.max_spec (height l) (height r)) as [[_ ->]|[_ ->]].
    + destruct (IHr (S d)) as (v & s & H). exists v, s. rewrite in_app_iff. right. now replace (d + S (height r))%nat with (S d + height r)%nat by lia.
    + destruct (IHl (S d)) as (v & s & H). exists v, s. rewrite in_app_iff. left. now replace (d + S (height l))%nat with (S d + height l)%nat by lia.
Qed.

(** The tree is built, unless it is too deep. *)
Lemma add_leaves_ok {K} (t : dtree K) : (depth t <= 128)%nat ->
  exists n, node_of (shape t) = Some n /\ add_leaves (dtree_leaves 0 t) [] = Ok [Some n].
Proof.
  intros H. destruct (node_of_ok (shape t)) as [n E]; [now rewrite height_shape|]. exists n. split; [exact E|].
  rewrite add_leaves_insert, leaves_dfs. now rewrite (insert_tree _ _ E).
Qed.
Lemma add_leaves_deep {K} (t : dtree K) : (128 < depth t)%nat -> add_leaves (dtree_leaves 0 t) [] = Panic.
Proof.
  intros H. rewrite add_leaves_insert, leaves_dfs. rewrite insert_too_deep; [reflexivity|].
  destruct (dfs_deep (shape t) 0) as (v & s & Hin). exists (0 + height (shape t))%nat, v, s. split; [exact Hin|]. now rewrite height_shape.
Qed.
Lemma spend_info_ok {K} (t : dtree K) : (depth t <= 128)%nat ->
  exists n, node_of (shape t) = Some n /\ spend_info (Some t) = Ok (Some n).
Proof.
  intros H. destruct (add_leaves_ok t H) as (n & E1 & E2). exists n. split; [exact E1|]. unfold spend_info. rewrite E2. reflexivity.
Qed.
Lemma spend_info_deep {K} (t : dtree K) : (128 < depth t)%nat -> spend_info (Some t) = Panic.
Proof. intros H. unfold spend_info. now rewrite (add_leaves_deep t H). Qed.

Lemma branch_hash_comm a b : branch_hash a b = branch_hash b a.
Proof.
  unfold branch_hash. destruct (hash_lt a b) eqn:E1, (hash_lt b a) eqn:E2; auto.
  - apply hash_lt_asym in E1. congruence.
  - now rewrite (hash_lt_total _ _ E1 E2).
Qed.
Lemma shash_shape {K} (t : dtree K) : shash (shape t) = root t.
Proof.
  induction t as [l|l IHl r IHr]; [reflexivity|]. cbn [shape shash root]. rewrite IHl, IHr, branch_hash_comm. reflexivity.
Qed.
Lemma node_root {K} (t : dtree K) n : node_of (shape t) = Some n -> ni_hash n = root t.
Proof. intros H. rewrite (node_of_hash _ _ H). apply shash_shape. Qed.

Lemma push_all_in h ls ls' s v p : push_all h ls = Some ls' ->
  In (TapLeaf s v p) ls' <-> exists p', p = p' ++ [h] /\ In (TapLeaf s v p') ls.
Proof.
  unfold push_all. destruct (forallb _ ls); [|discriminate]. intros H. injection H as <-. rewrite in_map_iff. split.
  - intros ([s0 v0 p0] & E & Hin). cbn [tl_script tl_ver tl_branch] in E. injection E as <- <- <-. eauto.
  - intros (p' & -> & Hin). exists (TapLeaf s v p'). auto.
Qed.
Lemma combine_in a b n s v p : node_combine a b = Some n ->
  In (TapLeaf s v p) (ni_leaves n) <->
    (exists p', p = p' ++ [ni_hash b] /\ In (TapLeaf s v p') (ni_leaves a))
    \/ (exists p', p = p' ++ [ni_hash a] /\ In (TapLeaf s v p') (ni_leaves b)).
Proof.
  unfold node_combine. destruct (hash_lt (ni_hash a) (ni_hash b)).
  - destruct (push_all (ni_hash b) (ni_leaves a)) as [la|] eqn:E1; [|discriminate].
    destruct (push_all (ni_hash a) (ni_leaves b)) as [lb|] eqn:E2; [|discriminate].
    intros H. injection H as <-. cbn [ni_leaves]. rewrite in_app_iff, (push_all_in _ _ _ _ _ _ E1), (push_all_in _ _ _ _ _ _ E2). tauto.
  - destruct (push_all (ni_hash a) (ni_leaves b)) as [lb|] eqn:E2; [|discriminate].
    destruct (push_all (ni_hash b) (ni_leaves a)) as [la|] eqn:E1; [|discriminate].
    intros H. injection H as <-. cbn [ni_leaves]. rewrite in_app_iff, (push_all_in _ _ _ _ _ _ E1), (push_all_in _ _ _ _ _ _ E2). tauto.
Qed.
(** The leaves of the node are those of the tree with their merkle paths. *)
Lemma node_leaves {K} (t : dtree K) : forall n s v p, node_of (shape t) = Some n ->
  In (TapLeaf s v p) (ni_leaves n) <-> v = 192 /\ path_in t s p.
Proof.
  induction t as [l|l IHl r IHr]; intros n s v p H; cbn [shape node_of] in H.
  - injection H as <-. cbn [leaf_node ni_leaves In]. split.
    + intros [E|[]]. injection E as <- <- <-. split; [reflexivity|constructor].
    + intros [-> P]. inversion P; subst. now left.
  - destruct (node_of (shape l)) as [nl|] eqn:El; [|discriminate]. destruct (node_of (shape r)) as [nr|] eqn:Er; [|discriminate].
    rewrite (combine_in _ _ _ _ _ _ H). rewrite (node_root l nl El), (node_root r nr Er). split.
    + intros [(p' & -> & Hin)|(p' & -> & Hin)].
      * apply (IHr nr) in Hin as [-> P]; [|reflexivity]. split; [reflexivity|now constructor].
      * apply (IHl nl) in Hin as [-> P]; [|reflexivity]. split; [reflexivity|now constructor].
    + intros [-> P]. inversion P; subst.
      * right. exists p0. split; [reflexivity|]. apply (IHl nl); auto.
      * left. exists p0. split; [reflexivity|]. apply (IHr nr); auto.
Qed.
Lemma node_count {K} (t : dtree K) n : node_of (shape t) = Some n -> length (ni_leaves n) = length (leaves t).
Proof.
  intros H. pose proof (node_of_dfs _ _ H) as E. apply (f_equal (@length _)) in E. unfold ninfo in E. rewrite map_length in E. rewrite E.
  rewrite (Permutation_length (dfs_can_perm (shape t) 0)), <- leaves_dfs, map_length, <- (map_length snd), leaves_snd. reflexivity.
Qed.
Lemma node_tree_after t n : node_of (shape t) = Some n -> tree_after t n.
Proof. intros H. split; [now apply node_root|intros; now apply node_leaves|now apply node_count]. Qed.

(** Going up a path of the tree leads to its root. *)
Lemma path_root {K} (t : dtree K) s p : path_in t s p -> climb s p = root t.
Proof.
  unfold climb. induction 1 as [l|l r s p P IH|l r s p P IH]; [reflexivity| |]; rewrite fold_left_app; cbn [fold_left root]; rewrite IH;
    [reflexivity|apply branch_hash_comm].
Qed.
Lemma path_length {K} (t : dtree K) s p : path_in t s p -> (length p <= depth t)%nat.
Proof. induction 1; cbn [depth length]; try rewrite app_length; cbn [length]; lia. Qed.
Lemma root_len {K} (L : ExtLaws X) (t : dtree K) : length (root t) = 32%nat.
Proof. destruct t; cbn [root]; unfold leaf_hash, branch_hash; [apply tap_leaf_hash_len|]. destruct (hash_lt _ _); apply tap_node_hash_len. Qed.
Lemma path_hashes {K} (L : ExtLaws X) (t : dtree K) s p : path_in t s p -> Forall (fun h => length h = 32%nat) p.
Proof.
  induction 1; [constructor| |]; apply Forall_app; split; auto; constructor; auto; now apply root_len.
Qed.
Lemma path_leaf {K} (t : dtree K) s p : path_in t s p -> exists l, In l (leaves t) /\ lf_script l = s.
Proof.
  induction 1 as [l|l r s p P (x & IH & E)|l r s p P (x & IH & E)]; cbn [leaves].
  - exists l. split; [now left|reflexivity].
  - exists x. rewrite in_app_iff. auto.
  - exists x. rewrite in_app_iff. auto.
Qed.
Lemma leaf_path {K} (t : dtree K) l : In l (leaves t) -> exists p, path_in t (lf_script l) p.
Proof.
  induction t as [x|a IHa b IHb]; cbn [leaves].
  - intros [->|[]]. exists []. constructor.
  - rewrite in_app_iff. intros [H|H]; [apply IHa in H as [p H]|apply IHb in H as [p H]]; eexists; [apply PathLeft|apply PathRight]; exact H.
Qed.

(** ** Control blocks *)

Lemma hash_lt_trans a b c : hash_lt a b = true -> hash_lt b c = true -> hash_lt a c = true.
Proof.
  unfold hash_lt. destruct (lex (bkey a) (bkey b)) eqn:E1; try discriminate. destruct (lex (bkey b) (bkey c)) eqn:E2; try discriminate.
  intros _ _. now rewrite (lex_lt_trans _ _ _ E1 E2).
Qed.
Lemma hash_lt_irrefl a : hash_lt a a = false.
Proof. unfold hash_lt. now rewrite lex_refl. Qed.
Lemma path_le_refl a : path_le a a.
Proof. right. split; [reflexivity|apply hash_lt_irrefl]. Qed.
Lemma path_le_trans a b c : path_le a b -> path_le b c -> path_le a c.
Proof.
  intros [H1|[H1 H2]] [H3|[H3 H4]]; [left; lia|left; lia|left; lia|]. right. split; [lia|].
  destruct (hash_lt (concat c) (concat a)) eqn:E; [|reflexivity]. exfalso.
  destruct (hash_lt (concat b) (concat c)) eqn:E2.
  - rewrite (hash_lt_trans _ _ _ E2 E) in H2. discriminate.
  - rewrite (hash_lt_total _ _ E2 H4) in *. congruence.
Qed.
Lemma branch_before_true a b : branch_before a b = true -> path_le a b.
Proof.
  unfold branch_before. destruct (Nat.eqb (length a) (length b)) eqn:E.
  - intros H. right. split; [now apply Nat.eqb_eq|]. now apply hash_lt_asym.
  - intros H. left. now apply Nat.ltb_lt.
Qed.
Lemma branch_before_false a b : branch_before a b = false -> path_le b a.
Proof.
  unfold branch_before. destruct (Nat.eqb (length a) (length b)) eqn:E.
  - intros H. right. split; [symmetry; now apply Nat.eqb_eq|exact H].
  - intros H. left. apply Nat.eqb_neq in E. apply Nat.ltb_ge in H. lia.
Qed.

Lemma best_branch_spec s ls :
  match best_branch s ls with
  | Some p => In (TapLeaf s 192 p) ls /\ forall p', In (TapLeaf s 192 p') ls -> path_le p p'
  | None => forall p, ~ In (TapLeaf s 192 p) ls
  end.
Proof.
  induction ls as [|[s0 v0 p0] r IH]; cbn [best_branch tl_script tl_ver tl_branch]; [intros p []|].
  destruct (bytes_eqb s0 s && (v0 =? TAPSCRIPT)) eqn:E.
  - apply andb_true_iff in E as [E1 E2]. apply bytes_eqb_eq in E1. apply N.eqb_eq in E2. unfold TAPSCRIPT in E2. subst s0 v0.
    destruct (best_branch s r) as [b|].
    + destruct IH as [Hin Hle]. destruct (branch_before p0 b) eqn:Eb.
      * apply branch_before_true in Eb. split; [now left|]. intros p' [E|H]; [injection E as <-; apply path_le_refl|]. eapply path_le_trans; [exact Eb|auto].
      * apply branch_before_false in Eb. split; [now right|]. intros p' [E|H]; [injection E as <-; exact Eb|auto].
    + split; [now left|]. intros p' [E|H]; [injection E as <-; apply path_le_refl|]. now apply IH in H.
  - assert (Hne : forall p, TapLeaf s0 v0 p0 <> TapLeaf s 192 p).
    { intros p H. injection H as -> -> _. rewrite bytes_eqb_refl in E. discriminate. }
    destruct (best_branch s r) as [b|].
    + destruct IH as [Hin Hle]. split; [now right|]. intros p' [H|H]; [now apply Hne in H|auto].
    + intros p [H|H]; [now apply Hne in H|now apply IH in H].
Qed.

Context `{D : DescExt}.

Lemma control_block_spec {K} ik (t : dtree K) n s : node_of (shape t) = Some n ->
  match control_block ik (Some n) s with
  | Some cb => controls ik (Some t) s cb
  | None => forall p, ~ path_in t s p
  end.
Proof.
  intros H. unfold control_block. pose proof (best_branch_spec s (ni_leaves n)) as B. destruct (best_branch s (ni_leaves n)) as [p|]; cbn [option_map].
  - destruct B as [B1 B2]. exists t, p. split; [reflexivity|]. split.
    + split; [now apply (node_leaves t n s 192 p H)|]. intros p' P. apply B2. now apply (node_leaves t n s 192 p' H).
    + now rewrite (node_root t n H).
  - intros p P. apply (B p). now apply (node_leaves t n s 192 p H).
Qed.
(** A script has one control block: paths of equal length and bytes are equal. *)
Lemma concat_inv a : forall b, Forall (fun h => length h = 32%nat) a -> Forall (fun h : bytes => length h = 32%nat) b ->
  concat a = concat b -> a = b.
Proof.
  induction a as [|x a IH]; intros [|y b] Ha Hb E; [reflexivity| | |]; cbn [concat] in E.
  - apply Forall_inv in Hb. symmetry in E. apply app_eq_nil in E as [-> _]. discriminate.
  - apply Forall_inv in Ha. apply app_eq_nil in E as [-> _]. discriminate.
  - pose proof (Forall_inv Ha) as Hx. pose proof (Forall_inv Hb) as Hy. apply Forall_inv_tail in Ha, Hb.
    apply app_inv_len in E as [-> E]; [|cbn in Hx, Hy; congruence]. f_equal. now apply IH.
Qed.
Lemma controls_fun {K} ik (tree : option (dtree K)) s cb cb' : controls ik tree s cb -> controls ik tree s cb' -> cb = cb'.
Proof.
  intros (t & p & -> & [P1 P2] & ->) (t' & p' & E & [P1' P2'] & ->). injection E as <-.
  f_equal. specialize (P2 _ P1'). specialize (P2' _ P1). destruct P2 as [H|[H1 H2]], P2' as [H'|[H1' H2']]; try lia.
  now apply hash_lt_total.
Qed.

End Trees.
