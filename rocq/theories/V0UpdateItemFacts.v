(** What an update makes of the fields of an input or output (V0Update.v). *)
From Coq Require Import Sorted Permutation.
From Verif Require Import Base OMap Consensus Ext Raw TapTree TapTreeFacts SpecCodec Serialize SerializeFacts MapCodec V2Sign SpecSign
  V2Finalize V2RolesFacts V0Input V0Output V0Psbt SpecExtract0 V0Sign SpecSign0 V0Finalize V0Update SpecUpdate0 V0UpdateFacts.
Local Open Scope N_scope.

(** ** Sorted hashes *)

Definition weakly (a b : bytes) : Prop := hash_lt b a = false.
Lemma weakly_trans a b c : weakly a b -> weakly b c -> weakly a c.
Proof.
  unfold weakly. intros H1 H2. destruct (hash_lt c a) eqn:E; [|reflexivity]. exfalso.
  destruct (hash_lt b c) eqn:E2.
  - rewrite (hash_lt_trans _ _ _ E2 E) in H1. discriminate.
  - rewrite (hash_lt_total _ _ E2 H2) in *. congruence.
Qed.
Lemma hash_insert_in h l x : In x (hash_insert h l) <-> x = h \/ In x l.
Proof.
  induction l as [|y r IH]; cbn [hash_insert]; [cbn; intuition|]. destruct (hash_lt y h); cbn [In]; [rewrite IH|]; cbn [In]; intuition.
Qed.
Lemma hash_insert_sorted h l : StronglySorted weakly l -> StronglySorted weakly (hash_insert h l).
Proof.
  induction l as [|y r IH]; intros H; cbn [hash_insert]; [repeat constructor|]. apply StronglySorted_inv in H as [H1 H2].
  destruct (hash_lt y h) eqn:E.
  - constructor; [now apply IH|]. apply Forall_forall. intros x Hx. apply hash_insert_in in Hx as [->|Hx].
    + now apply hash_lt_asym.
    + rewrite Forall_forall in H2. auto.
  - constructor; [constructor; assumption|]. constructor; [exact E|]. rewrite Forall_forall in *. intros x Hx.
    eapply weakly_trans; [exact E|]. auto.
Qed.
Lemma hash_sort_in l x : In x (hash_sort l) <-> In x l.
Proof. unfold hash_sort. induction l as [|y r IH]; cbn [fold_right In]; [tauto|]. rewrite hash_insert_in, IH. intuition. Qed.
Lemma hash_sort_sorted l : StronglySorted weakly (hash_sort l).
Proof. unfold hash_sort. induction l as [|y r IH]; cbn [fold_right]; [constructor|]. now apply hash_insert_sorted. Qed.
Lemma dedup_in l x : In x (dedup l) <-> In x l.
Proof.
  induction l as [|y r IH]; [tauto|]. cbn [dedup]. destruct r as [|z r]; [tauto|].
  destruct (bytes_eqb y z) eqn:E; [apply bytes_eqb_eq in E; subst z|].
  - rewrite IH. cbn [In]. intuition.
  - cbn [In]. rewrite IH. cbn [In]. intuition.
Qed.
Lemma dedup_ascending l : StronglySorted weakly l -> ascending (dedup l).
Proof.
  unfold ascending. induction l as [|y r IH]; intros H; [constructor|]. cbn [dedup]. destruct r as [|z r]; [repeat constructor|].
  apply StronglySorted_inv in H as [H1 H2]. destruct (bytes_eqb y z) eqn:E; [now apply IH|].
  constructor; [now apply IH|]. apply Forall_forall. intros x Hx. apply (proj1 (dedup_in _ _)) in Hx.
  assert (Hyz : hash_lt y z = true).
  { destruct (hash_lt y z) eqn:E2; [reflexivity|]. apply Forall_inv in H2. rewrite (hash_lt_total _ _ E2 H2), bytes_eqb_refl in E. discriminate. }
  destruct Hx as [<-|Hx]; [exact Hyz|]. apply StronglySorted_inv in H1 as [_ H3]. rewrite Forall_forall in H3. specialize (H3 x Hx).
  destruct (hash_lt z x) eqn:E3; [now apply (hash_lt_trans _ _ _ Hyz)|]. now rewrite <- (hash_lt_total _ _ E3 H3).
Qed.
Definition tidy (l : list bytes) : list bytes := dedup (hash_sort l).
Lemma tidy_in l x : In x (tidy l) <-> In x l.
Proof. unfold tidy. now rewrite dedup_in, hash_sort_in. Qed.
Lemma tidy_ascending l : ascending (tidy l).
Proof. apply dedup_ascending, hash_sort_sorted. Qed.
(** Ascending lists with the same members are equal. *)
Lemma ascending_ext a : forall b, ascending a -> ascending b -> (forall x, In x a <-> In x b) -> a = b.
Proof.
  induction a as [|x a IH]; intros [|y b] Ha Hb E.
  - reflexivity.
  - exfalso. apply (E y). now left.
  - exfalso. apply (E x). now left.
  - apply StronglySorted_inv in Ha as [Ha1 Ha2]. apply StronglySorted_inv in Hb as [Hb1 Hb2]. rewrite Forall_forall in Ha2, Hb2.
    assert (Hxy : x = y).
    { destruct (proj1 (E x) (or_introl eq_refl)) as [->|Hx]; [reflexivity|]. destruct (proj2 (E y) (or_introl eq_refl)) as [->|Hy]; [reflexivity|].
      apply Hb2 in Hx. apply Ha2 in Hy. apply hash_lt_asym in Hx. congruence. }
    subst y. f_equal. apply IH; auto. intros z. specialize (E z). cbn [In] in E. split; intros Hz.
    + destruct (proj1 E (or_intror Hz)) as [->|H]; [|exact H]. apply Ha2 in Hz. rewrite hash_lt_irrefl in Hz. discriminate.
    + destruct (proj2 E (or_intror Hz)) as [->|H]; [|exact H]. apply Hb2 in Hz. rewrite hash_lt_irrefl in Hz. discriminate.
Qed.

(** ** Key sources *)

Lemma key_sources_snoc l k : key_sources (l ++ [k]) = m_put bkey (pub_inner (fst k)) (snd k) (key_sources l).
Proof. unfold key_sources. now rewrite fold_left_app. Qed.
Lemma key_sources_sorted l : m_sorted bkey (key_sources l).
Proof.
  induction l as [|k l IH] using rev_ind; [constructor|]. rewrite key_sources_snoc. now apply (m_put_sorted bkey bkey_inj).
Qed.
Lemma key_sources_get l pk src : m_get bkey pk (key_sources l) = Some src <-> last_source l pk src.
Proof.
  revert pk src. induction l as [|k l IH] using rev_ind; intros pk src.
  - cbn [key_sources fold_left m_get]. split; [discriminate|]. intros (l1 & k & l2 & E & _). now destruct l1.
  - rewrite key_sources_snoc. destruct (list_eq_dec Byte.byte_eq_dec pk (pub_inner (fst k))) as [->|Hne].
    + rewrite (m_get_put_eq bkey bkey_inj). split.
      * intros E. injection E as <-. exists l, k, []. split; [reflexivity|]. split; [reflexivity|]. split; [reflexivity|]. intros k' [].
      * intros (l1 & k1 & l2 & E & E1 & E2 & E3). destruct (@exists_last _ (k1 :: l2)) as (l3 & k3 & E4); [discriminate|].
        rewrite E4, app_assoc in E. apply app_inj_tail in E as [-> ->]. destruct l3 as [|k4 l3]; cbn [app] in E4.
        -- injection E4 as -> ->. now rewrite E2.
        -- injection E4 as -> ->. exfalso. apply (E3 k3); [apply in_elt|reflexivity].
    + rewrite (m_get_put_neq bkey bkey_inj) by exact Hne. rewrite IH. split.
      * intros (l1 & k1 & l2 & -> & E1 & E2 & E3). exists l1, k1, (l2 ++ [k]). split; [now rewrite <- app_assoc|]. split; [exact E1|]. split; [exact E2|].
        intros k' Hin. apply in_app_iff in Hin as [Hin|[<-|[]]]; [auto|congruence].
      * intros (l1 & k1 & l2 & E & E1 & E2 & E3). destruct (@exists_last _ (k1 :: l2)) as (l3 & k3 & E4); [discriminate|].
        rewrite E4, app_assoc in E. apply app_inj_tail in E as [-> ->]. destruct l3 as [|k4 l3]; cbn [app] in E4.
        -- injection E4 as -> ->. congruence.
        -- injection E4 as -> ->. exists l1, k4, l3. split; [reflexivity|]. split; [exact E1|]. split; [exact E2|].
           intros k' Hin. apply E3. apply in_app_iff. now left.
Qed.
Lemma key_sources_none l pk : m_get bkey pk (key_sources l) = None <-> forall k, In k l -> pub_inner (fst k) <> pk.
Proof.
  induction l as [|k l IH] using rev_ind; [cbn; firstorder|]. rewrite key_sources_snoc.
  destruct (list_eq_dec Byte.byte_eq_dec pk (pub_inner (fst k))) as [->|Hne].
  - rewrite (m_get_put_eq bkey bkey_inj). split; [discriminate|]. intros H. exfalso. apply (H k); [apply in_elt|reflexivity].
  - rewrite (m_get_put_neq bkey bkey_inj) by exact Hne. rewrite IH. split; intros H k' Hin.
    + apply in_app_iff in Hin as [Hin|[<-|[]]]; [auto|congruence].
    + apply H. apply in_app_iff. now left.
Qed.
Lemma sources_extend l old : sources_after l old (m_extend bkey old (key_sources l)).
Proof.
  intros pk src. rewrite (m_get_extend bkey bkey_inj) by apply key_sources_sorted.
  destruct (m_get bkey pk (key_sources l)) as [s|] eqn:E.
  - split.
    + intros H. injection H as <-. left. now apply key_sources_get.
    + intros [H|[H _]]; [apply key_sources_get in H; congruence|]. apply key_sources_none in H. congruence.
  - pose proof (proj1 (key_sources_none l pk) E) as N. split; [auto|]. intros [H|[_ H]]; [|exact H]. apply key_sources_get in H. congruence.
Qed.

(** ** Taproot key origins *)

Definition push_hash (h : bytes) (hs : list bytes) : list bytes :=
  if match rev hs with x :: _ => bytes_eqb x h | [] => false end then hs else hs ++ [h].
Lemma push_hash_in h hs x : In x (push_hash h hs) <-> In x hs \/ x = h.
Proof.
  unfold push_hash. destruct (rev hs) as [|y r] eqn:E.
  - rewrite in_app_iff. cbn [In]. intuition.
  - destruct (bytes_eqb y h) eqn:Ey.
    + apply bytes_eqb_eq in Ey. subst y. split; [auto|]. intros [H| ->]; [exact H|]. apply in_rev. rewrite E. now left.
    + rewrite in_app_iff. cbn [In]. intuition.
Qed.
Lemma add_origin_get h x src (m : list (bytes * taporigin)) x' : m_get bkey x' (add_origin h x src m) =
  if list_eq_dec Byte.byte_eq_dec x' x then Some (match m_get bkey x m with Some (hs, o) => (push_hash h hs, o) | None => ([h], src) end)
  else m_get bkey x' m.
Proof.
  unfold add_origin. destruct (list_eq_dec Byte.byte_eq_dec x' x) as [->|Hne].
  - destruct (m_get bkey x m) as [[hs o]|]; now rewrite (m_get_put_eq bkey bkey_inj).
  - destruct (m_get bkey x m) as [[hs o]|]; now rewrite (m_get_put_neq bkey bkey_inj) by exact Hne.
Qed.
Lemma add_origin_sorted h x src m : m_sorted bkey m -> m_sorted bkey (add_origin h x src m).
Proof. intros H. unfold add_origin. destruct (m_get bkey x m) as [[hs o]|]; now apply (m_put_sorted bkey bkey_inj). Qed.

(** All keys of all leaves, each with the hash of its leaf. *)
Section Origins.
Context `{X : Ext}.

Definition entries (ls : list (dleaf ddkey)) : list (bytes * ddkey) := flat_map (fun l => map (fun k => (leaf_hash l, k)) (lf_keys l)) ls.
Definition origins_fold (es : list (bytes * ddkey)) (m : list (bytes * taporigin)) : list (bytes * taporigin) :=
  fold_left (fun m e => add_origin (fst e) (x_of (snd e)) (snd (snd e)) m) es m.
Definition at_leaf (es : list (bytes * ddkey)) (x h : bytes) : Prop := exists e, In e es /\ fst e = h /\ x_of (snd e) = x.

Lemma entries_in ls x h : at_leaf (entries ls) x h <-> exists l k, In l ls /\ h = leaf_hash l /\ In k (lf_keys l) /\ x_of k = x.
Proof.
  unfold at_leaf, entries. split.
  - intros ([h' k] & Hin & <- & <-). apply in_flat_map in Hin as (l & Hl & Hin). apply in_map_iff in Hin as (k' & E & Hk). injection E as <- <-.
    exists l, k'. auto.
  - intros (l & k & Hl & -> & Hk & <-). exists (leaf_hash l, k). split; [|auto]. apply in_flat_map. exists l. split; [exact Hl|]. apply in_map_iff. now exists k.
Qed.
Lemma entries_keys ls : map snd (entries ls) = concat (map lf_keys ls).
Proof.
  induction ls as [|l r IH]; [reflexivity|]. cbn [entries flat_map map concat]. rewrite map_app, map_map. cbn [snd]. rewrite map_id.
  f_equal. exact IH.
Qed.
Lemma origins_fold_sorted es : forall m, m_sorted bkey m -> m_sorted bkey (origins_fold es m).
Proof. induction es as [|e r IH]; intros m H; cbn [origins_fold fold_left]; [exact H|]. apply IH. now apply add_origin_sorted. Qed.

Lemma origins_fold_some es : forall (m : list (bytes * taporigin)) x hs src, m_get bkey x m = Some (hs, src) ->
  exists hs', m_get bkey x (origins_fold es m) = Some (hs', src) /\ forall h, In h hs' <-> In h hs \/ at_leaf es x h.
Proof.
  induction es as [|e r IH]; intros m x hs src H; cbn [origins_fold fold_left].
  - exists hs. split; [exact H|]. intros h. split; [auto|]. intros [Hh|(e & [] & _)]. exact Hh.
  - pose proof (add_origin_get (fst e) (x_of (snd e)) (snd (snd e)) m x) as G. destruct (list_eq_dec Byte.byte_eq_dec x (x_of (snd e))) as [E|Hne].
    + rewrite <- E, H in G. rewrite <- E. destruct (IH _ _ _ _ G) as (hs' & H1 & H2). exists hs'. split; [exact H1|]. intros h. rewrite H2, push_hash_in.
      unfold at_leaf. split.
      * intros [[Hh|Hh]|(e' & Hin & E1 & E2)]; [auto| |].
        -- right. exists e. split; [now left|]. auto.
        -- right. exists e'. split; [now right|]. auto.
      * intros [Hh|(e' & [<-|Hin] & E1 & E2)]; [auto|auto|]. right. exists e'. auto.
    + rewrite H in G. destruct (IH _ _ _ _ G) as (hs' & H1 & H2). exists hs'. split; [exact H1|]. intros h. rewrite H2. unfold at_leaf. split.
      * intros [Hh|(e' & Hin & E1 & E2)]; [auto|]. right. exists e'. split; [now right|]. auto.
      * intros [Hh|(e' & [<-|Hin] & E1 & E2)]; [auto|congruence|]. right. exists e'. auto.
Qed.
Lemma origins_fold_none es : forall (m : list (bytes * taporigin)) x, m_get bkey x m = None ->
  match m_get bkey x (origins_fold es m) with
  | None => forall e, In e es -> x_of (snd e) <> x
  | Some (hs, src) => hs <> [] /\ (forall h, In h hs <-> at_leaf es x h) /\ first_source (map snd es) x src
  end.
Proof.
  induction es as [|e r IH]; intros m x H; cbn [origins_fold fold_left].
  - rewrite H. intros e [].
  - pose proof (add_origin_get (fst e) (x_of (snd e)) (snd (snd e)) m x) as G. destruct (list_eq_dec Byte.byte_eq_dec x (x_of (snd e))) as [E|Hne].
    + rewrite <- E, H in G. rewrite <- E. destruct (origins_fold_some r _ _ _ _ G) as (hs' & H1 & H2). unfold origins_fold in H1. rewrite H1.
      split; [|split].
      * intros ->. apply (proj2 (H2 (fst e))). left. now left.
      * intros h. rewrite H2. unfold at_leaf. split.
        -- intros [[<-|[]]|(e' & Hin & E1 & E2)]; [exists e; split; [now left|auto]|]. exists e'. split; [now right|]. auto.
        -- intros (e' & [<-|Hin] & E1 & E2); [left; now left|]. right. exists e'. auto.
      * exists [], (snd e), (map snd r). split; [reflexivity|]. split; [now symmetry|]. split; [reflexivity|]. intros k [].
    + rewrite H in G. specialize (IH _ _ G). unfold origins_fold in IH. destruct (m_get bkey x (fold_left _ r _)) as [[hs src]|].
      * destruct IH as (H1 & H2 & (l1 & k & l2 & E1 & E2 & E3 & E4)). split; [exact H1|]. split.
        -- intros h. rewrite H2. unfold at_leaf. split; [intros (e' & Hin & F); exists e'; split; [now right|exact F]|].
           intros (e' & [<-|Hin] & F1 & F2); [congruence|]. exists e'. auto.
        -- exists (snd e :: l1), k, l2. split; [cbn [map app]; now rewrite E1|]. split; [exact E2|]. split; [exact E3|].
           intros k' [<-|Hin]; [congruence|auto].
      * intros e' [<-|Hin]; [congruence|auto].
Qed.

Lemma tidy_origins_get (l : list (bytes * taporigin)) x : m_get bkey x (tidy_origins l) = option_map (fun o => (tidy (fst o), snd o)) (m_get bkey x l).
Proof.
  unfold tidy_origins. induction l as [|[x' o] r IH]; [reflexivity|]. cbn [map m_get fst snd]. destruct (lex (bkey x) (bkey x')); [reflexivity|exact IH|exact IH].
Qed.
Lemma tidy_origins_keys l : map fst (tidy_origins l) = map fst l.
Proof. unfold tidy_origins. rewrite map_map. cbn [fst]. reflexivity. Qed.
Lemma tidy_origins_sorted l : m_sorted bkey l -> m_sorted bkey (tidy_origins l).
Proof. unfold m_sorted. now rewrite tidy_origins_keys. Qed.

Definition new_origins (ik : ddkey) (tree : option (dtree ddkey)) (old : list (bytes * taporigin)) : list (bytes * taporigin) :=
  tidy_origins (origins_fold (entries (tr_scripts tree)) (m_put bkey (x_of ik) ([], snd ik) old)).

Lemma first_source_fun l x a b : first_source l x a -> first_source l x b -> a = b.
Proof.
  intros (l1 & k1 & l2 & -> & E1 & <- & N1) (m1 & k2 & m2 & E & E2 & <- & N2). revert m1 E N2. induction l1 as [|a0 l1 IH]; intros [|b0 m1] E N2; cbn [app] in E.
  - now injection E as -> _.
  - injection E as -> _. exfalso. apply (N2 b0); [now left|exact E1].
  - injection E as -> _. exfalso. apply (N1 k2); [now left|exact E2].
  - injection E as -> E. apply (IH (fun k H => N1 k (or_intror H)) m1 E). intros k H. apply N2. now right.
Qed.
Lemma origin_after_fun ik tree old x o o' : origin_after ik tree old x o -> origin_after ik tree old x o' -> o = o'.
Proof.
  intros H H'. destruct H as [hs E A I|hs0 hs src E G A I|hs src E G A I F], H' as [hs' E' A' I'|hs0' hs' src' E' G' A' I'|hs' src' E' G' A' I' F'];
    try contradiction; try congruence.
  - f_equal. apply ascending_ext; auto. intros h. now rewrite I, I'.
  - rewrite G in G'. injection G' as <- <-. f_equal. apply ascending_ext; auto. intros h. now rewrite I, I'.
  - rewrite (first_source_fun _ _ _ _ F F'). f_equal. apply ascending_ext; auto. intros h. now rewrite I, I'.
Qed.

Lemma new_origins_spec ik tree old : origins_after ik tree old (new_origins ik tree old).
Proof.
  set (es := entries (tr_scripts tree)). set (m := m_put bkey (x_of ik) ([], snd ik) old).
  assert (Hl : forall x h, at_leaf es x h <-> in_leaf tree x h) by (intros x h; apply entries_in).
  assert (Hget : forall x, m_get bkey x (new_origins ik tree old) = option_map (fun o => (tidy (fst o), snd o)) (m_get bkey x (origins_fold es m)))
    by (intros x; apply tidy_origins_get).
  assert (Hone : forall x o, m_get bkey x (new_origins ik tree old) = Some o -> origin_after ik tree old x o).
  { intros x o Ho. rewrite Hget in Ho. destruct (list_eq_dec Byte.byte_eq_dec x (x_of ik)) as [E|Hne].
    - assert (G : m_get bkey x m = Some ([], snd ik)) by (subst m; rewrite E; apply (m_get_put_eq bkey bkey_inj)).
      destruct (origins_fold_some es m x _ _ G) as (hs & H1 & H2). rewrite H1 in Ho. injection Ho as <-. cbn [fst snd].
      apply OriginInternal; [exact E|apply tidy_ascending|]. intros h. rewrite tidy_in, H2, Hl. cbn [In]. tauto.
    - assert (G : m_get bkey x m = m_get bkey x old) by (subst m; now apply (m_get_put_neq bkey bkey_inj)).
      destruct (m_get bkey x old) as [[hs0 src]|] eqn:Eo.
      + destruct (origins_fold_some es m x _ _ G) as (hs & H1 & H2). rewrite H1 in Ho. injection Ho as <-. cbn [fst snd].
        apply (OriginOld ik tree old x hs0); [exact Hne|exact Eo|apply tidy_ascending|]. intros h. rewrite tidy_in, H2, Hl. tauto.
      + pose proof (origins_fold_none es m x G) as F. destruct (m_get bkey x (origins_fold es m)) as [[hs src]|]; [|discriminate].
        destruct F as (F1 & F2 & F3). injection Ho as <-. cbn [fst snd].
        apply OriginLeaf; [exact Hne|exact Eo|apply tidy_ascending| |].
        * intros h. rewrite tidy_in, F2. apply Hl.
        * subst es. now rewrite entries_keys in F3. }
  intros x o. split; [apply Hone|]. intros Ho.
  destruct (m_get bkey x (new_origins ik tree old)) as [o'|] eqn:E.
  - f_equal. apply Hone in E. eapply origin_after_fun; eassumption.
  - exfalso. rewrite Hget in E. destruct Ho as [hs Ex A I|hs0 hs src Ex G A I|hs src Ex G A I F].
    + assert (G : m_get bkey x m = Some ([], snd ik)) by (subst m; rewrite Ex; apply (m_get_put_eq bkey bkey_inj)).
      destruct (origins_fold_some es m x _ _ G) as (hs' & H1 & _). rewrite H1 in E. discriminate.
    + assert (G' : m_get bkey x m = Some (hs0, src)) by (subst m; now rewrite (m_get_put_neq bkey bkey_inj) by exact Ex).
      destruct (origins_fold_some es m x _ _ G') as (hs' & H1 & _). rewrite H1 in E. discriminate.
    + assert (G' : m_get bkey x m = None) by (subst m; now rewrite (m_get_put_neq bkey bkey_inj) by exact Ex).
      pose proof (origins_fold_none es m x G') as H1. destruct (m_get bkey x (origins_fold es m)) as [[hs' src']|]; [discriminate|].
      destruct F as (l1 & k & l2 & E1 & E2 & _). subst es. rewrite <- entries_keys in E1.
      assert (Hin : In k (map snd (entries (tr_scripts tree)))) by (rewrite E1; apply in_elt).
      apply in_map_iff in Hin as (e & <- & Hin). now apply (H1 e Hin).
Qed.
Lemma new_origins_sorted ik tree old : m_sorted bkey old -> m_sorted bkey (new_origins ik tree old).
Proof. intros H. apply tidy_origins_sorted, origins_fold_sorted. now apply (m_put_sorted bkey bkey_inj). Qed.

(** ** Scripts by control block *)

Context `{D : DescExt}.

Definition scripts_fold ik (info : option taptree) (ss : list bytes) (m : list (controlblock * (bytes * N))) : list (controlblock * (bytes * N)) :=
  fold_left (fun m s => match control_block ik info s with Some cb => m_put sk_controlblock cb (s, TAPSCRIPT) m | None => m end) ss m.

Lemma controlblock_dec (a b : controlblock) : {a = b} + {a <> b}.
Proof. decide equality; try apply N.eq_dec; try apply bool_dec; apply (list_eq_dec Byte.byte_eq_dec). Qed.

Lemma scripts_fold_get ik info ss : forall m cb,
  match m_get sk_controlblock cb (scripts_fold ik info ss m) with
  | Some (s, v) => v = 192 /\ In s ss /\ control_block ik info s = Some cb
                   \/ (forall s', In s' ss -> control_block ik info s' <> Some cb) /\ m_get sk_controlblock cb m = Some (s, v)
  | None => (forall s', In s' ss -> control_block ik info s' <> Some cb) /\ m_get sk_controlblock cb m = None
  end.
Proof.
  unfold leafscript. induction ss as [|s0 r IH]; intros m cb; cbn [scripts_fold fold_left].
  - destruct (m_get sk_controlblock cb m) as [[s v]|]; [right|]; auto.
  - destruct (control_block ik info s0) as [cb0|] eqn:E0.
    + specialize (IH (m_put sk_controlblock cb0 (s0, TAPSCRIPT) m) cb). unfold scripts_fold in IH. unfold scripts_fold.
      destruct (controlblock_dec cb cb0) as [->|Hne].
      * rewrite (m_get_put_eq sk_controlblock sk_controlblock_inj) in IH. destruct (m_get sk_controlblock cb0 (fold_left _ r _)) as [[s v]|]; [|destruct IH; discriminate].
        left. destruct IH as [(-> & Hin & E)|(Hno & E)].
        -- split; [reflexivity|]. split; [now right|exact E].
        -- injection E as <- <-. split; [reflexivity|]. split; [now left|exact E0].
      * rewrite (m_get_put_neq sk_controlblock sk_controlblock_inj) in IH by exact Hne.
        destruct (m_get sk_controlblock cb (fold_left _ r _)) as [[s v]|].
        -- destruct IH as [(-> & Hin & E)|(Hno & E)]; [left; split; [reflexivity|]; split; [now right|exact E]|].
           right. split; [|exact E]. intros s' [<-|Hin]; [congruence|auto].
        -- destruct IH as (Hno & E). split; [|exact E]. intros s' [<-|Hin]; [congruence|auto].
    + specialize (IH m cb). unfold scripts_fold in IH. unfold scripts_fold. destruct (m_get sk_controlblock cb (fold_left _ r _)) as [[s v]|].
      * destruct IH as [(-> & Hin & E)|(Hno & E)]; [left; split; [reflexivity|]; split; [now right|exact E]|].
        right. split; [|exact E]. intros s' [<-|Hin]; [congruence|auto].
      * destruct IH as (Hno & E). split; [|exact E]. intros s' [<-|Hin]; [congruence|auto].
Qed.
Lemma scripts_fold_sorted ik info ss : forall m, m_sorted sk_controlblock m -> m_sorted sk_controlblock (scripts_fold ik info ss m).
Proof.
  induction ss as [|s r IH]; intros m H; cbn [scripts_fold fold_left]; [exact H|]. apply IH. destruct (control_block ik info s); [|exact H].
  now apply (m_put_sorted sk_controlblock sk_controlblock_inj).
Qed.

(** The node of the tree, if there is one. *)
Definition info_of (tree : option (dtree ddkey)) (info : option taptree) : Prop :=
  match tree with Some t => exists n, info = Some n /\ node_of (shape t) = Some n | None => info = None end.

Lemma control_block_iff ik tree info s cb : info_of tree info -> control_block ik info s = Some cb <-> controls ik tree s cb.
Proof.
  destruct tree as [t|]; cbn [info_of].
  - intros (n & -> & Hn). pose proof (control_block_spec ik t n s Hn) as H. split; intros Hc.
    + now rewrite Hc in H.
    + destruct (control_block ik (Some n) s) as [cb'|].
      * f_equal. eapply controls_fun; eassumption.
      * exfalso. destruct Hc as (t' & p & E & [P _] & _). injection E as <-. now apply (H p).
  - intros ->. cbn [control_block]. split; [discriminate|]. intros (t' & p & E & _). discriminate.
Qed.
Lemma control_block_leaf ik tree info l : info_of tree info -> In l (tr_scripts tree) -> exists cb, control_block ik info (lf_script l) = Some cb.
Proof.
  destruct tree as [t|]; cbn [info_of tr_scripts]; [|intros _ []]. intros (n & -> & Hn) Hin.
  pose proof (control_block_spec ik t n (lf_script l) Hn) as H. destruct (control_block ik (Some n) (lf_script l)) as [cb|]; [eauto|].
  apply leaf_path in Hin as [p P]. now apply H in P.
Qed.
Lemma scripts_spec ik tree info old : info_of tree info ->
  scripts_after ik tree old (scripts_fold (x_of ik) info (map lf_script (tr_scripts tree)) old).
Proof.
  intros Hi. pose proof (scripts_fold_get (x_of ik) info (map lf_script (tr_scripts tree)) old) as G. unfold leafscript in *.
  assert (Hin : forall s cb, controls (x_of ik) tree s cb -> In s (map lf_script (tr_scripts tree))).
  { intros s cb (t & p & -> & [P _] & _). apply path_leaf in P as (l & Hl & <-). now apply in_map. }
  split; unfold leafscript in *.
  - intros cb s v Hs. specialize (G cb). rewrite Hs in G. destruct G as [(-> & _ & E)|(Hno & E)].
    + left. split; [reflexivity|]. now apply (control_block_iff _ _ _ _ _ Hi).
    + right. split; [|exact E]. intros s' Hc. apply (Hno s'); [now apply Hin in Hc|]. now apply (control_block_iff _ _ _ _ _ Hi).
  - intros l Hl. destruct (control_block_leaf (x_of ik) tree info l Hi Hl) as [cb E]. exists cb. now apply (control_block_iff _ _ _ _ _ Hi).
  - intros s cb Hc E. specialize (G cb). rewrite E in G. destruct G as [Hno _]. apply (Hno s); [now apply Hin in Hc|].
    now apply (control_block_iff _ _ _ _ _ Hi).
  - intros cb Hno. specialize (G cb). destruct (m_get sk_controlblock cb (scripts_fold _ _ _ old)) as [[s v]|].
    + destruct G as [(-> & _ & E)|(_ & E)]; [|now rewrite E]. apply (control_block_iff _ _ _ _ _ Hi) in E. now apply Hno in E.
    + destruct G as [_ E]. now rewrite E.
Qed.

(** ** The loop over the leaves *)

Lemma update_leaves_eq ik info ls : forall br br' f,
  add_leaves ls br = Ok br' -> (forall e, In e ls -> control_block ik info (lf_script (snd e)) <> None) ->
  update_leaves ik info ls br f
  = Ok (br', set_f_tap_key_origins (origins_fold (entries (map snd ls)) (f_tap_key_origins f))
               (map_f_tap_scripts (scripts_fold ik info (map (fun e => lf_script (snd e)) ls)) f)).
Proof.
  induction ls as [|[d lf] r IH]; intros br br' f H Hc; cbn [update_leaves add_leaves map snd] in *.
  - injection H as <-. f_equal. f_equal. destruct f as [f1 f2 f3 f4 f5 f6 f7 f8].
    unfold set_f_tap_key_origins, map_f_tap_scripts. cbn. f_equal. now destruct f7.
  - destruct (add_leaf d (lf_script lf) br) as [b|e|]; cbn [bind] in *; try discriminate.
    pose proof (Hc (d, lf) (or_introl eq_refl)) as Hcb. cbn [snd] in Hcb.
    destruct (control_block ik info (lf_script lf)) as [cb|] eqn:Ecb; [|congruence].
    set (es0 := entries [lf]).
    assert (Eo : forall m, add_leaf_origins (tap_leaf_hash (lf_script lf) TAPSCRIPT) (lf_keys lf) m = origins_fold es0 m).
    { intros m. unfold add_leaf_origins, origins_fold, es0, entries. cbn [flat_map]. rewrite app_nil_r.
      generalize (lf_keys lf). intros keys. revert m. induction keys as [|k keys IHk]; intros m; [reflexivity|]. cbn [fold_left map fst snd]. apply IHk. }
    assert (Ee : forall m, origins_fold (entries (map snd r)) (origins_fold es0 m) = origins_fold (entries (lf :: map snd r)) m).
    { intros m. unfold origins_fold at 1 2 3, es0. rewrite <- fold_left_app. f_equal. unfold entries. cbn [flat_map]. rewrite app_nil_r. reflexivity. }
    assert (Hstep : (f1 <- match f_tap_scripts f with
                    | Some _ => cb0 <- expect (Some cb) ;; Ok (map_f_tap_scripts (m_put sk_controlblock cb0 (lf_script lf, TAPSCRIPT)) f)
                    | None => @Ok Empty_set fields f end ;;
                     update_leaves ik info r b (set_f_tap_key_origins (add_leaf_origins (tap_leaf_hash (lf_script lf) TAPSCRIPT) (lf_keys lf) (f_tap_key_origins f1)) f1))
       = update_leaves ik info r b (set_f_tap_key_origins (origins_fold es0 (f_tap_key_origins f))
           (map_f_tap_scripts (m_put sk_controlblock cb (lf_script lf, TAPSCRIPT)) f))).
    { destruct f as [f1 f2 f3 f4 f5 f6 [f7|] f8]; cbn [f_tap_scripts expect bind]; rewrite Eo; reflexivity. }
    rewrite Hstep. rewrite (IH b br' _ H) by (intros e He; apply Hc; now right). f_equal. f_equal.
    destruct f as [f1 f2 f3 f4 f5 f6 f7 f8]. unfold set_f_tap_key_origins, map_f_tap_scripts. cbn [f_redeem_script f_witness_script f_bip32_derivation f_tap_internal_key f_tap_key_origins f_tap_tree f_tap_scripts f_tap_merkle_root].
    rewrite Ee. f_equal. destruct f7 as [f7|]; [|reflexivity]. cbn [option_map]. f_equal. cbn [scripts_fold fold_left]. now rewrite Ecb.
Qed.

Context `{T : SchnorrExt}.

Definition fits_tree {K} (tree : option (dtree K)) : Prop := match tree with Some t => (depth t <= 128)%nat | None => True end.
Lemma spend_info_fits tree : fits_tree tree -> exists info, spend_info tree = Ok info /\ info_of tree info /\ merkle_root info = tr_root tree.
Proof.
  destruct tree as [t|]; cbn [fits_tree].
  - intros H. destruct (spend_info_ok t H) as (n & E1 & E2). exists (Some n). split; [exact E2|]. split; [now exists n|]. cbn [merkle_root option_map tr_root].
    now rewrite (node_root t n E1).
  - intros _. exists None. split; [reflexivity|]. split; reflexivity.
Qed.
Definition new_tree (tree : option (dtree ddkey)) (info : option taptree) (old : option (option taptree)) : option (option taptree) :=
  match old, tree with Some _, Some _ => Some info | x, _ => x end.
(** The fields after an update with a taproot descriptor. *)
Definition tr_fields (ik : ddkey) tree info (f : fields) : fields :=
  Fields (f_redeem_script f) (f_witness_script f) (f_bip32_derivation f) (Some (x_of ik))
    (new_origins ik tree (f_tap_key_origins f)) (new_tree tree info (f_tap_tree f))
    (option_map (scripts_fold (x_of ik) info (map lf_script (tr_scripts tree))) (f_tap_scripts f))
    (option_map (fun _ => tr_root tree) (f_tap_merkle_root f)).
Lemma update_tr_eq ik tree info f : spend_info tree = Ok info -> info_of tree info -> merkle_root info = tr_root tree ->
  update_tr ik tree f = Ok (tr_fields ik tree info f).
Proof.
  intros Es Hi Hr.
  assert (Hadd : exists br, add_leaves (tr_leaves tree) [] = Ok br /\ (forall t, tree = Some t -> finish br = match info with Some n => Ok n | None => Panic end)).
  { destruct tree as [t|]; cbn [tr_leaves info_of] in *; [|exists []; split; [reflexivity|discriminate]].
    destruct Hi as (n & -> & Hn). exists [Some n]. split; [|intros; reflexivity].
    rewrite add_leaves_insert, leaves_dfs. now rewrite (insert_tree _ _ Hn). }
  destruct Hadd as (br & Hadd & Hfin).
  assert (Hcb : forall e, In e (tr_leaves tree) -> control_block (x_of ik) info (lf_script (snd e)) <> None).
  { intros [d lf] He. cbn [snd]. destruct (control_block_leaf (x_of ik) tree info lf Hi) as [cb E]; [|congruence].
    rewrite <- tr_leaves_snd. apply in_map_iff. now exists (d, lf). }
  destruct f as [f1 f2 f3 f4 f5 f6 f7 f8].
  assert (Hloop : update_leaves (x_of ik) info (tr_leaves tree) []
      (Fields f1 f2 f3 (Some (x_of ik)) (m_put bkey (x_of ik) ([], snd ik) f5) f6 f7 (option_map (fun _ => tr_root tree) f8))
    = Ok (br, Fields f1 f2 f3 (Some (x_of ik)) (origins_fold (entries (tr_scripts tree)) (m_put bkey (x_of ik) ([], snd ik) f5)) f6
          (option_map (scripts_fold (x_of ik) info (map lf_script (tr_scripts tree))) f7) (option_map (fun _ => tr_root tree) f8))).
  { rewrite (update_leaves_eq (x_of ik) info (tr_leaves tree) [] br _ Hadd Hcb). rewrite tr_leaves_snd, <- (map_map snd lf_script), tr_leaves_snd. reflexivity. }
  unfold update_tr. rewrite Es. cbn [bind]. cbv zeta. rewrite Hr. unfold set_f_tap_key_origins, set_f_tap_merkle_root, set_f_tap_internal_key.
  cbn [f_redeem_script f_witness_script f_bip32_derivation f_tap_internal_key f_tap_key_origins f_tap_tree f_tap_scripts f_tap_merkle_root].
  unfold xonly_key. unfold x_of in Hloop at 1 2 3. fold (x_of ik). unfold x_of in Hloop at 1. fold (x_of ik) in Hloop. rewrite Hloop. cbn [bind f_redeem_script f_witness_script f_bip32_derivation f_tap_internal_key f_tap_key_origins f_tap_tree f_tap_scripts f_tap_merkle_root].
  unfold tr_fields, new_tree, new_origins. cbn [f_redeem_script f_witness_script f_bip32_derivation f_tap_internal_key f_tap_key_origins f_tap_tree f_tap_scripts f_tap_merkle_root].
  destruct f6 as [f6|]; [|reflexivity]. destruct tree as [t|]; [|reflexivity]. rewrite (Hfin t eq_refl). destruct Hi as (n & -> & _). reflexivity.
Qed.

(** ** The update of the fields *)

Definition plain_fields (d : descr ddkey) (f : fields) : fields :=
  Fields (match redeem_of d with Some s => Some s | None => f_redeem_script f end)
    (match witness_of d with Some s => Some s | None => f_witness_script f end)
    (m_extend bkey (f_bip32_derivation f) (key_sources (all_keys d)))
    (f_tap_internal_key f) (f_tap_key_origins f) (f_tap_tree f) (f_tap_scripts f) (f_tap_merkle_root f).
Definition new_fields (d : descr ddkey) (f f' : fields) : Prop :=
  match d with
  | DscTr ik tree => exists info, info_of tree info /\ f' = tr_fields ik tree info f
  | _ => f' = plain_fields d f
  end.

Lemma fits_cases (d : descr ddkey) : fits d \/ exists k t, d = DscTr k (Some t) /\ (128 < depth t)%nat.
Proof. destruct d as [| | | | | | |k [t|]]; cbn [fits]; auto. destruct (le_lt_dec (depth t) 128); eauto. Qed.

Lemma spk_eq (L : ExtLaws X) (LD : DescLaws T) d : fits d -> desc_script_pubkey d = Ok (spk_of d).
Proof.
  assert (H0 : forall k : ddkey, p2wpkh_of (fst k) = program_script 0 (key_hash k)).
  { intros k. unfold p2wpkh_of, program_script, key_hash, pubkey_hash, hash160, blen. rewrite ripemd160_len. reflexivity. }
  assert (H1 : forall s, script_to_p2wsh s = program_script 0 (sha256 s)).
  { intros s. unfold script_to_p2wsh, program_script, blen. rewrite sha256_len. reflexivity. }
  destruct d as [keys s|k|k|keys s|keys s|k|keys s|k tree]; cbn [desc_script_pubkey spk_of fits]; intros H; try reflexivity.
  - f_equal. apply H0.
  - f_equal. apply H1.
  - f_equal. now rewrite H0.
  - f_equal. now rewrite H1.
  - destruct (spend_info_fits tree) as (info & E1 & E2 & E3); [destruct tree; exact H|]. rewrite E1. cbn [bind]. f_equal. rewrite E3.
    unfold script_p2tr, program_script, blen. rewrite output_key_len. reflexivity.
Qed.

Lemma update_item_ok (L : ExtLaws X) (LD : DescLaws T) d d' check f : derives d d' -> fits d' ->
  exists f', new_fields d' f f' /\
  update_item d check f = if check_fails check (spk_of d') then (f, Ok (d', false)) else (f', Ok (d', true)).
Proof.
  intros Hd Hf. pose proof (proj2 (derive_desc_ok d d') Hd) as E. unfold update_item. rewrite E, (spk_eq L LD d' Hf).
  assert (H0 : forall k : ddkey, p2wpkh_of (fst k) = program_script 0 (key_hash k)).
  { intros k. unfold p2wpkh_of, program_script, key_hash, pubkey_hash, hash160, blen. rewrite ripemd160_len. reflexivity. }
  assert (H1 : forall s, script_to_p2wsh s = program_script 0 (sha256 s)).
  { intros s. unfold script_to_p2wsh, program_script, blen. rewrite sha256_len. reflexivity. }
  destruct d' as [keys s|k|k|keys s|keys s|k|keys s|k tree]; cbn [new_fields update_scripts desc_keys].
  8: { destruct (spend_info_fits tree) as (info & E1 & E2 & E3); [destruct tree; exact Hf|]. exists (tr_fields k tree info f).
       split; [eauto|]. rewrite (update_tr_eq k tree info f E1 E2 E3). reflexivity. }
  all: eexists; split; [reflexivity|]; try rewrite H0; try rewrite H1; destruct (check_fails check _); reflexivity.
Qed.
Lemma update_item_err d check f : (forall d', ~ derives d d') -> update_item d check f = (f, Err HardenedChild).
Proof.
  intros H. unfold update_item. destruct (derive_desc_cases d) as [[d' E]|[E _]]; rewrite E; [|reflexivity].
  apply derive_desc_ok in E. now apply H in E.
Qed.
Lemma update_item_deep d d' check f : derives d d' -> ~ fits d' -> update_item d check f = (f, Panic).
Proof.
  intros Hd Hf. pose proof (proj2 (derive_desc_ok d d') Hd) as E. unfold update_item. rewrite E.
  destruct (fits_cases d') as [H|(k & t & -> & H)]; [contradiction|]. cbn [desc_script_pubkey]. now rewrite (spend_info_deep t H).
Qed.
Lemma derives_cases d : (exists d', derives d d') \/ forall d', ~ derives d d'.
Proof.
  destruct (derive_desc_cases d) as [[d' E]|[E _]]; [left; exists d'; now apply derive_desc_ok|]. right. intros d' H. apply derive_desc_ok in H. congruence.
Qed.

(** The fields of an input, respectively an output. *)
Lemma new_fields_input d i f' : new_fields d (input_fields i) f' -> input_updated d i (input_with_fields f' i).
Proof.
  destruct d as [keys s|k|k|keys s|keys s|k|keys s|k tree]; cbn [new_fields].
  8: { intros (info & Hi & ->).
       assert (E : input_with_fields (tr_fields k tree info (input_fields i)) i
         = set_i0_tap_internal_key (Some (x_of k)) (set_i0_tap_merkle_root (tr_root tree)
             (set_i0_tap_key_origins (new_origins k tree (i0_tap_key_origins i))
               (set_i0_tap_scripts (scripts_fold (x_of k) info (map lf_script (tr_scripts tree)) (i0_tap_scripts i)) i))))
         by (destruct i; reflexivity).
       rewrite E. apply IUTaproot; [reflexivity|apply new_origins_spec|now apply scripts_spec]. }
  all: intros ->; match goal with |- input_updated ?d _ _ =>
         assert (E : input_with_fields (plain_fields d (input_fields i)) i =
           set_i0_bip32_derivation (m_extend bkey (i0_bip32_derivation i) (key_sources (all_keys d)))
             (set_i0_redeem_script (match redeem_of d with Some s => Some s | None => i0_redeem_script i end)
               (set_i0_witness_script (match witness_of d with Some s => Some s | None => i0_witness_script i end) i)))
           by (destruct i; reflexivity) end;
       rewrite E; apply IUPlain; [intros (? & ? & ?); discriminate|apply sources_extend].
Qed.
Lemma new_fields_output d o f' : new_fields d (output_fields o) f' -> output_updated d o (output_with_fields f' o).
Proof.
  destruct d as [keys s|k|k|keys s|keys s|k|keys s|k tree]; cbn [new_fields].
  8: { intros (info & Hi & ->).
       assert (E : output_with_fields (tr_fields k tree info (output_fields o)) o
         = set_o0_tap_internal_key (Some (x_of k)) (set_o0_tap_tree (match tree with Some _ => info | None => o0_tap_tree o end)
             (set_o0_tap_key_origins (new_origins k tree (o0_tap_key_origins o)) o)))
         by (destruct o; destruct tree; reflexivity).
       rewrite E. apply (OUTaproot _ _ k tree); [reflexivity|apply new_origins_spec|].
       destruct tree as [t|]; [|reflexivity]. destruct Hi as (n & -> & Hn). exists n. split; [reflexivity|]. now apply node_tree_after. }
  all: intros ->; match goal with |- output_updated ?d _ _ =>
         assert (E : output_with_fields (plain_fields d (output_fields o)) o =
           set_o0_bip32_derivation (m_extend bkey (o0_bip32_derivation o) (key_sources (all_keys d)))
             (set_o0_redeem_script (match redeem_of d with Some s => Some s | None => o0_redeem_script o end)
               (set_o0_witness_script (match witness_of d with Some s => Some s | None => o0_witness_script o end) o)))
           by (destruct o; reflexivity) end;
       rewrite E; apply OUPlain; [intros (? & ? & ?); discriminate|apply sources_extend].
Qed.
End Origins.
Lemma input_fields_same i : input_with_fields (input_fields i) i = i.
Proof. now destruct i. Qed.
Lemma output_fields_same o : output_with_fields (output_fields o) o = o.
Proof. now destruct o. Qed.
