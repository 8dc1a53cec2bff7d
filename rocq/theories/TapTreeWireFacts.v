(** What the taproot tree codec reads. *)
From Coq Require Import Permutation.
From Verif Require Import Base OMap Consensus ConsensusFacts Ext Raw TapTree TapTreeFacts SpecCodec SpecTx TxWireFacts SpecTapTree.
Local Open Scope N_scope.

Section Facts.
Context `{X : Ext}.

Lemma leaves_dfs t : forall d, leaves_at d t = dfs d t.
Proof. induction t as [s v|l IHl r IHr]; intros d; cbn; [reflexivity|]. now rewrite IHl, IHr. Qed.

Lemma branch_hash_comm a b : branch_hash a b = branch_hash b a.
Proof.
  unfold branch_hash. rewrite (lex_antisym (bkey a) (bkey b)). destruct (lex (bkey a) (bkey b)) eqn:E; cbn; auto.
  apply lex_eq in E. apply bkey_inj in E. now subst.
Qed.
Lemma branch_hash_lt a b : branch_hash a b = if hash_lt a b then tap_node_hash a b else tap_node_hash b a.
Proof. unfold branch_hash, hash_lt. now destruct (lex _ _). Qed.
Lemma merkle_shash t : merkle_root t = shash t.
Proof.
  induction t as [s v|l IHl r IHr]; [reflexivity|]. cbn [merkle_root shash].
  rewrite IHl, IHr, branch_hash_comm. apply branch_hash_lt.
Qed.

(** ** Paths *)
Lemma push_proves h g ls ls' : push_all h ls = Some ls' -> Forall (proves g) ls -> Forall (proves (branch_hash g h)) ls'.
Proof.
  unfold push_all. destruct (forallb _ _); [|discriminate]. intros [= <-] F. apply Forall_map.
  eapply Forall_impl; [|exact F]. intros l <-. unfold proves. cbn. now rewrite fold_left_app.
Qed.
Lemma node_proves t n : node_of t = Some n -> Forall (proves (ni_hash n)) (ni_leaves n).
Proof.
  revert n. induction t as [s v|l IHl r IHr]; intros n H; cbn in H.
  - inv H. repeat constructor.
  - destruct (node_of l) as [nl|] eqn:El; [|discriminate]. destruct (node_of r) as [nr|] eqn:Er; [|discriminate].
    specialize (IHl _ eq_refl). specialize (IHr _ eq_refl). unfold node_combine in H.
    destruct (hash_lt (ni_hash nr) (ni_hash nl)) eqn:E.
    + destruct (push_all (ni_hash nl) (ni_leaves nr)) as [lr|] eqn:E1; [|discriminate].
      destruct (push_all (ni_hash nr) (ni_leaves nl)) as [ll|] eqn:E2; [|discriminate]. inv H. cbn.
      apply push_proves with (g := ni_hash nr) in E1; [|exact IHr]. apply push_proves with (g := ni_hash nl) in E2; [|exact IHl].
      rewrite branch_hash_comm in E2. rewrite branch_hash_lt, E in E1, E2. apply Forall_app. auto.
    + destruct (push_all (ni_hash nr) (ni_leaves nl)) as [ll|] eqn:E2; [|discriminate].
      destruct (push_all (ni_hash nl) (ni_leaves nr)) as [lr|] eqn:E1; [|discriminate]. inv H. cbn.
      apply push_proves with (g := ni_hash nr) in E1; [|exact IHr]. apply push_proves with (g := ni_hash nl) in E2; [|exact IHl].
      rewrite branch_hash_comm in E2. rewrite branch_hash_lt, E in E1, E2. apply Forall_app. auto.
Qed.

(** ** The builder holds subtrees, the listings of which were read *)
Definition holds (o : option taptree) (s : option ttree) : Prop :=
  match o, s with
  | Some n, Some sh => node_of sh = Some n
  | None, None => True
  | _, _ => False
  end.
Fixpoint listing (d : nat) (fs : list (option ttree)) : list (nat * N * bytes) :=
  match fs with
  | [] => []
  | None :: r => listing (S d) r
  | Some sh :: r => dfs d sh ++ listing (S d) r
  end.
Lemma listing_app a : forall d b, listing d (a ++ b) = listing d a ++ listing (d + length a) b.
Proof.
  induction a as [|[sh|] a IH]; intros d b; cbn [app listing length].
  - f_equal. lia.
  - rewrite IH, app_assoc. do 2 f_equal. lia.
  - rewrite IH. do 2 f_equal. lia.
Qed.
Lemma listing_none k : forall d, listing d (repeat None k) = [].
Proof. induction k; cbn; auto. Qed.
Lemma holds_none k : Forall2 holds (repeat None k) (repeat None k).
Proof. induction k; cbn; constructor; cbn; auto. Qed.
Lemma holds_length br fs : Forall2 holds br fs -> length fs = length br.
Proof. induction 1; cbn; auto. Qed.

Lemma insert_up_holds d : forall br n fs sh d' br' n',
  Forall2 holds br fs -> node_of sh = Some n -> (length br <= d + 1)%nat ->
  insert_up d br n = Some (d', br', n') ->
  exists fs' sh', Forall2 holds br' fs' /\ node_of sh' = Some n'
    /\ listing 0 fs' ++ dfs d' sh' = listing 0 fs ++ dfs d sh
    /\ (length br' <= d' \/ (length br' = d' + 1 /\ last br' None = None))%nat.
Proof.
  induction d as [|d IH]; intros br n fs sh d' br' n' Hb Hn Hl H; cbn [insert_up] in H.
  - destruct (Nat.eqb_spec (length br) (0 + 1)) as [e|e].
    + destruct (last br None) eqn:El; [discriminate|]. inv H. exists fs, sh. split; [exact Hb|]. split; [exact Hn|]. split; [reflexivity|]. right. split; [lia|exact El].
    + inv H. exists fs, sh. split; [exact Hb|]. split; [exact Hn|]. split; [reflexivity|]. left. lia.
  - destruct (Nat.eqb_spec (length br) (S d + 1)) as [e|e].
    + destruct (last br None) as [child|] eqn:El.
      * destruct (node_combine n child) as [n1|] eqn:Ec; [|discriminate].
        assert (Hne : br <> []) by (intros ->; cbn in e; lia).
        pose proof (app_removelast_last None Hne) as Eb. rewrite El in Eb.
        assert (Hl1 : length (removelast br) = S d).
        { rewrite Eb in e. rewrite app_length in e. cbn in e. lia. }
        rewrite Eb in Hb. apply Forall2_app_inv_l in Hb as (f1 & f2 & H1 & H2 & ->).
        inversion H2 as [|o s l2 r2 Ho Hr]; subst. inversion Hr; subst. destruct s as [sc|]; [|destruct Ho]. cbn in Ho.
        assert (Hc : node_of (TB sc sh) = Some n1) by (cbn; now rewrite Ho, Hn).
        destruct (IH _ _ f1 (TB sc sh) _ _ _ H1 Hc ltac:(lia) H) as (fs' & sh' & A & B & C & D).
        exists fs', sh'. split; [exact A|]. split; [exact B|]. split; [|exact D].
        rewrite C, listing_app. cbn [listing dfs]. rewrite (holds_length _ _ H1), Hl1. cbn. now rewrite app_nil_r, app_assoc.
      * inv H. exists fs, sh. split; [exact Hb|]. split; [exact Hn|]. split; [reflexivity|]. right. split; [lia|exact El].
    + inv H. exists fs, sh. split; [exact Hb|]. split; [exact Hn|]. split; [reflexivity|]. left. lia.
Qed.

Lemma tb_insert_holds d br n fs sh br' :
  Forall2 holds br fs -> node_of sh = Some n -> tb_insert d br n = Some br' ->
  exists fs', Forall2 holds br' fs' /\ listing 0 fs' = listing 0 fs ++ dfs d sh /\ (d <= 128)%nat.
Proof.
  intros Hb Hn H. unfold tb_insert in H.
  destruct (Nat.ltb_spec MAX_NODE_COUNT d) as [?|Hd]; [discriminate|].
  destruct (Nat.ltb_spec (d + 1) (length br)) as [?|Hle]; [discriminate|].
  destruct (insert_up d br n) as [[[d1 br1] n1]|] eqn:E; [|discriminate]. inv H.
  destruct (insert_up_holds _ _ _ _ _ _ _ _ Hb Hn Hle E) as (fs1 & sh1 & A & B & C & D).
  rewrite <- C. pose proof (holds_length _ _ A) as Lf. destruct D as [D|[D1 D2]].
  - rewrite place_short by assumption. exists (fs1 ++ repeat None (d1 - length br1) ++ [Some sh1]).
    split; [|split; [|exact Hd]].
    + apply Forall2_app; [exact A|]. apply Forall2_app; [apply holds_none|]. constructor; [exact B|constructor].
    + rewrite !listing_app, listing_none, repeat_length, Lf. cbn [listing app].
      replace (0 + length br1 + (d1 - length br1))%nat with d1 by lia. now rewrite app_nil_r.
  - assert (Q : exists q, br1 = q ++ [None] /\ length q = d1).
    { assert (Hne : br1 <> []) by (intros ->; cbn in D1; lia).
      pose proof (app_removelast_last None Hne) as Eb. rewrite D2 in Eb. exists (removelast br1). split; [exact Eb|].
      rewrite Eb in D1. rewrite app_length in D1. cbn in D1. lia. }
    destruct Q as (q & -> & Hl1). apply Forall2_app_inv_l in A as (f1 & f2 & H1 & H2 & ->).
    inversion H2 as [|o s l2 r2 Ho Hr]; subst o l2 f2. inversion Hr; subst r2. destruct s as [sc|]; [destruct Ho|].
    rewrite place_exact by exact Hl1. exists (f1 ++ [Some sh1]). split; [|split; [|exact Hd]].
    + apply Forall2_app; [exact H1|]. constructor; [exact B|constructor].
    + rewrite !listing_app. cbn [listing app]. rewrite !app_nil_r, (holds_length _ _ H1), Hl1. reflexivity.
Qed.

Lemma de_loop_holds fuel : forall br bs fs br',
  Forall2 holds br fs -> de_taptree_loop fuel br bs = Ok br' ->
  exists fs' ls, Forall2 holds br' fs' /\ listing 0 fs' = listing 0 fs ++ ls /\ Forall wf_leaf ls /\ bs = enc_all enc_leaf ls.
Proof.
  induction fuel as [|f IH]; intros br bs fs br' Hb H; destruct bs as [|dep r1]; cbn in H.
  - inv H. exists fs, []. rewrite app_nil_r. auto.
  - discriminate.
  - inv H. exists fs, []. rewrite app_nil_r. auto.
  - destruct r1 as [|ver r2]; [discriminate|]. binds H. apply map_err_ok in Hx.
    destruct (leaf_version_ok (b2n ver)) eqn:Ev; cbn [negb] in H; [|discriminate].
    destruct (tb_insert _ br _) as [br1|] eqn:Ei; [|discriminate].
    apply dec_bytes_canon in Hx as [-> Hs].
    destruct (tb_insert_holds _ _ _ _ (TL b (b2n ver)) _ Hb eq_refl Ei) as (f1 & A & B & Hd).
    destruct (IH _ _ _ _ A H) as (fs' & ls & C & D & F & ->).
    exists fs', ((N.to_nat (b2n dep), b2n ver, b) :: ls). split; [exact C|]. split.
    { rewrite D, B. cbn [dfs]. now rewrite <- app_assoc. }
    split.
    + constructor; [|exact F]. unfold wf_leaf, MAX_NODE_COUNT. cbn. repeat split; auto. apply b2n_lt.
    + rewrite enc_all_cons. unfold enc_leaf at 2. cbn [fst snd]. now rewrite N2Nat.id, !n2b_b2n.
Qed.

(** ** Forms *)
Lemma leaf_wire_iff l b : leaf_wire l b <-> wf_vec (snd l) /\ b = enc_leaf l.
Proof.
  destruct l as [[d v] s]. unfold leaf_wire, enc_leaf. cbn [fst snd]. split.
  - intros (c & H & ->). apply string_wire_iff in H as [H ->]. auto.
  - intros [H ->]. exists (enc_bytes s). split; [now apply string_wire_iff|reflexivity].
Qed.
Lemma leaf_allowed_iff l : leaf_allowed l <-> wf_leaf l.
Proof.
  destruct l as [[d v] s]. unfold leaf_allowed, wf_leaf, leaf_version_ok, wf_vec. cbn [fst snd].
  change U64 with (2 ^ 64). unfold MAX_NODE_COUNT. rewrite andb_true_iff, negb_true_iff, N.eqb_eq, N.eqb_neq. tauto.
Qed.
Lemma tree_wire_iff t b : tree_allowed t -> tree_wire t b <-> b = enc_all enc_leaf (dfs 0 t).
Proof.
  intros A. unfold tree_wire, tree_allowed in *. rewrite leaves_dfs in *. split.
  - intros (bs & F & ->). apply (F2_wire _ _ _ _ _ leaf_wire_iff) in F as [_ ->]. reflexivity.
  - intros ->. exists (map enc_leaf (dfs 0 t)). split; [|reflexivity]. apply (F2_wire _ _ _ _ _ leaf_wire_iff).
    split; [|reflexivity]. eapply Forall_impl; [|exact A]. intros l Hl. apply leaf_allowed_iff in Hl. apply Hl.
Qed.
Lemma allowed_wf t : tree_allowed t <-> wf_shape t /\ (height t <= MAX_NODE_COUNT)%nat.
Proof.
  unfold tree_allowed. rewrite leaves_dfs.
  assert (G : forall d, Forall leaf_allowed (dfs d t) <-> wf_shape t /\ (d + height t <= MAX_NODE_COUNT)%nat).
  { induction t as [s v|l IHl r IHr]; intros d; cbn [dfs wf_shape height].
    - split.
      + intros H. inversion H as [|? ? H1 _]; subst. apply leaf_allowed_iff in H1 as (H1 & H2 & H3 & H4). cbn in *. repeat split; auto. lia.
      + intros [(H1 & H2 & H3) H4]. constructor; [|constructor]. apply leaf_allowed_iff. unfold wf_leaf. cbn. repeat split; auto. lia.
    - rewrite Forall_app, IHl, IHr. split; intros; repeat split; try tauto; lia. }
  apply (G 0%nat).
Qed.

Lemma de_taptree_node bs t : de_taptree bs = Ok t ->
  exists sh, tree_allowed sh /\ node_of sh = Some t /\ tree_wire sh bs.
Proof.
  intros H. unfold de_taptree in H. binds H.
  destruct (de_loop_holds _ _ _ [] _ ltac:(constructor) Hx) as (fs & ls & A & B & F & ->).
  unfold tb_finish in H. destruct x as [|[n|] [|y x]]; try discriminate. inv H.
  inversion A as [|o s l2 r2 Ho Hr]; subst. inversion Hr; subst. destruct s as [sh|]; [|destruct Ho]. cbn in Ho, B.
  rewrite app_nil_r in B. subst ls. exists sh.
  assert (W : tree_allowed sh).
  { unfold tree_allowed. rewrite leaves_dfs. eapply Forall_impl; [|exact F]. intros l. apply leaf_allowed_iff. }
  split; [exact W|]. split; [exact Ho|]. now apply tree_wire_iff.
Qed.
Lemma node_de_taptree sh t bs : tree_allowed sh -> node_of sh = Some t -> tree_wire sh bs -> de_taptree bs = Ok t.
Proof.
  intros W N T. apply tree_wire_iff in T as ->; [|exact W]. apply allowed_wf in W as [W Hh].
  unfold de_taptree. rewrite de_loop_leaves.
  - now rewrite (insert_tree _ _ N).
  - now apply dfs_wf.
  - lia.
Qed.

Lemma dfs_depth t : forall d, exists v s r, exists e, dfs d t = (e, v, s) :: r /\ (d <= e)%nat /\ (forall l m, t = TB l m -> (d < e)%nat).
Proof.
  induction t as [s v|l IHl r IHr]; intros d.
  - exists v, s, [], d. cbn. split; [reflexivity|]. split; [lia|]. discriminate.
  - destruct (IHl (S d)) as (v & s & q & e & E & H & _). exists v, s, (q ++ dfs (S d) r), e. cbn [dfs]. rewrite E.
    split; [reflexivity|]. split; [lia|]. intros; lia.
Qed.
Lemma dfs_inj t : forall t' d a b, dfs d t ++ a = dfs d t' ++ b -> t = t' /\ a = b.
Proof.
  induction t as [s v|l IHl r IHr]; intros t' d a b H.
  - destruct t' as [s' v'|l' r'].
    + cbn in H. injection H as -> -> ->. auto.
    + destruct (dfs_depth (TB l' r') d) as (v' & s' & q & e & E & _ & G). rewrite E in H. cbn in H. injection H as -> _ _ _.
      specialize (G _ _ eq_refl). lia.
  - destruct t' as [s' v'|l' r'].
    + destruct (dfs_depth (TB l r) d) as (v & s & q & e & E & _ & G). rewrite E in H. cbn in H. injection H as -> _ _ _.
      specialize (G _ _ eq_refl). lia.
    + cbn [dfs] in H. rewrite <- !app_assoc in H. apply IHl in H as [-> H]. apply IHr in H as [-> H]. auto.
Qed.
Lemma enc_leaf_inj ls : forall ls', Forall wf_leaf ls -> Forall wf_leaf ls' -> enc_all enc_leaf ls = enc_all enc_leaf ls' -> ls = ls'.
Proof.
  induction ls as [|[[d v] s] ls IH]; intros ls' W W' H.
  - destruct ls' as [|[[d' v'] s'] ls']; [reflexivity|]. rewrite enc_all_cons in H. discriminate.
  - destruct ls' as [|[[d' v'] s'] ls']; [rewrite enc_all_cons in H; discriminate|].
    rewrite !enc_all_cons in H. unfold enc_leaf at 1 3 in H. cbn [fst snd] in H. rewrite <- !app_comm_cons in H.
    injection H as H1 H2 H3. inversion W as [|? ? (P1 & P2 & _ & P4) Wl]; subst. inversion W' as [|? ? (Q1 & Q2 & _ & Q4) Wl']; subst.
    cbn in P1, P2, P4, Q1, Q2, Q4. unfold MAX_NODE_COUNT in *.
    apply (f_equal b2n) in H1, H2. rewrite !b2n_n2b in H1, H2 by lia.
    assert (d = d') by lia. subst d' v'.
    pose proof (dec_bytes_rt s (enc_all enc_leaf ls) P4) as R1. pose proof (dec_bytes_rt s' (enc_all enc_leaf ls') Q4) as R2.
    rewrite H3 in R1. rewrite R1 in R2. injection R2 as -> R2. f_equal. now apply IH.
Qed.
Lemma tree_wire_inj t t' b : tree_allowed t -> tree_allowed t' -> tree_wire t b -> tree_wire t' b -> t = t'.
Proof.
  intros W W' H H'. apply tree_wire_iff in H as ->; [|exact W]. apply tree_wire_iff in H'; [|exact W'].
  apply enc_leaf_inj in H'.
  - rewrite <- (app_nil_r (dfs 0 t)), <- (app_nil_r (dfs 0 t')) in H'. now apply dfs_inj in H'.
  - apply allowed_wf in W as [W Hh]. now apply dfs_wf.
  - apply allowed_wf in W' as [W' Hh]. now apply dfs_wf.
Qed.

Lemma can_swapped t : swapped t (can t).
Proof.
  induction t as [s v|l IHl r IHr]; cbn; [constructor|]. destruct (hash_lt _ _); now constructor.
Qed.
Lemma ser_taptree_wire sh t : tree_allowed sh -> node_of sh = Some t -> tree_wire (can sh) (ser_taptree t).
Proof.
  intros W N. apply tree_wire_iff.
  - apply allowed_wf. apply allowed_wf in W as [W Hh]. rewrite height_can. split; [now apply wf_can|exact Hh].
  - now rewrite ser_taptree_info, (node_of_dfs _ _ N).
Qed.
End Facts.
