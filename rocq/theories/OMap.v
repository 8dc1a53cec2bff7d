(** Model of [std::collections::BTreeMap] (not part of the crate's own source).

    A map is the list of its entries in iteration order, i.e. sorted by the
    lexicographic order of an injective sort key [sk : K -> list N] chosen so
    that this order is Rust's [Ord] on [K].  With sorted lists Rust's [==] on
    maps is equality of lists. *)
From Verif Require Import Base.
From Coq Require Import Sorting.Sorted Permutation.
Local Open Scope N_scope.

Section OMap.
Context {K V : Type} (sk : K -> list N).

(** [BTreeMap::get]. *)
Fixpoint m_get (k : K) (m : list (K * V)) : option V :=
  match m with
  | [] => None
  | (k', v) :: r =>
      match lex (sk k) (sk k') with
      | Eq => Some v
      | _ => m_get k r
      end
  end.

(** [BTreeMap::insert] (the previous value, if any, is replaced). *)
Fixpoint m_put (k : K) (v : V) (m : list (K * V)) : list (K * V) :=
  match m with
  | [] => [(k, v)]
  | (k', v') :: r =>
      match lex (sk k) (sk k') with
      | Lt => (k, v) :: m
      | Eq => (k, v) :: r
      | Gt => (k', v') :: m_put k v r
      end
  end.

(** [BTreeMap::contains_key]. *)
Definition m_mem (k : K) (m : list (K * V)) : bool := is_some (m_get k m).

(** [BTreeMap::extend] / [FromIterator]. *)
Definition m_extend (m l : list (K * V)) : list (K * V) :=
  fold_left (fun acc kv => m_put (fst kv) (snd kv) acc) l m.

(** The entries are in strictly increasing key order. *)
Definition key_lt (a b : K) : Prop := lex (sk a) (sk b) = Lt.
Definition m_sorted (m : list (K * V)) : Prop := StronglySorted key_lt (map fst m).

Hypothesis sk_inj : forall a b, sk a = sk b -> a = b.

Lemma key_lt_trans a b c : key_lt a b -> key_lt b c -> key_lt a c.
Proof. apply lex_lt_trans. Qed.

Lemma lex_sk_eq a b : lex (sk a) (sk b) = Eq <-> a = b.
Proof. rewrite lex_eq. split; [apply sk_inj | congruence]. Qed.

Lemma m_sorted_nil : m_sorted [].
Proof. constructor. Qed.

Lemma m_sorted_inv k v r :
  m_sorted ((k, v) :: r) -> m_sorted r /\ Forall (key_lt k) (map fst r).
Proof. intros H. inversion H; subst. auto. Qed.

Lemma m_sorted_cons k v r :
  m_sorted r -> Forall (key_lt k) (map fst r) -> m_sorted ((k, v) :: r).
Proof. intros H1 H2. constructor; assumption. Qed.

Lemma m_get_lt_none k m :
  Forall (key_lt k) (map fst m) -> m_get k m = None.
Proof.
  induction m as [|[k' v'] r IH]; intros H; cbn; auto.
  inversion H as [|? ? H1 H2]; subst. unfold key_lt in H1. cbn in H1. rewrite H1. auto.
Qed.

Lemma m_get_in k v m : m_get k m = Some v -> In (k, v) m.
Proof.
  induction m as [|[k' v'] r IH]; cbn; [discriminate|].
  destruct (lex (sk k) (sk k')) eqn:E; auto.
  intros [= ->]. apply lex_sk_eq in E. subst. now left.
Qed.

Lemma m_in_get k v m : m_sorted m -> In (k, v) m -> m_get k m = Some v.
Proof.
  induction m as [|[k' v'] r IH]; cbn; intros Hs Hin; [tauto|].
  apply m_sorted_inv in Hs as [Hs Hf].
  destruct Hin as [[= -> ->] | Hin].
  - now rewrite lex_refl.
  - assert (H : key_lt k' k).
    { rewrite Forall_forall in Hf. apply Hf. apply in_map_iff. now exists (k, v). }
    unfold key_lt in H. rewrite lex_antisym, H. cbn. auto.
Qed.

Lemma m_get_some_iff k v m : m_sorted m -> (m_get k m = Some v <-> In (k, v) m).
Proof. intros H. split; [apply m_get_in | now apply m_in_get]. Qed.

Lemma m_get_none_notin k m : m_get k m = None -> ~ In k (map fst m).
Proof.
  induction m as [|[k' v'] r IH]; cbn; auto.
  destruct (lex (sk k) (sk k')) eqn:E; try discriminate; intros H [->|Hin];
    try (rewrite lex_refl in E; discriminate); now apply IH.
Qed.

Lemma m_notin_get_none k m : ~ In k (map fst m) -> m_get k m = None.
Proof.
  intros H. destruct (m_get k m) eqn:E; auto.
  apply m_get_in in E. exfalso. apply H. apply in_map_iff. now exists (k, v).
Qed.

Lemma m_mem_in k m : m_mem k m = true <-> In k (map fst m).
Proof.
  unfold m_mem. destruct (m_get k m) eqn:E; cbn; split; intros H; try congruence.
  - apply m_get_in in E. apply in_map_iff. now exists (k, v).
  - now apply m_get_none_notin in E.
Qed.

Lemma m_put_keys k v m x : In x (map fst (m_put k v m)) <-> x = k \/ In x (map fst m).
Proof.
  induction m as [|[k' v'] r IH]; cbn; [intuition|].
  destruct (lex (sk k) (sk k')) eqn:E; cbn.
  - apply lex_sk_eq in E. subst. intuition.
  - intuition.
  - rewrite IH. intuition.
Qed.

Lemma m_put_sorted k v m : m_sorted m -> m_sorted (m_put k v m).
Proof.
  induction m as [|[k' v'] r IH]; cbn; intros Hs.
  - repeat constructor.
  - pose proof Hs as Hs0. apply m_sorted_inv in Hs as [Hs Hf].
    destruct (lex (sk k) (sk k')) eqn:E.
    + apply lex_sk_eq in E. subst. now constructor.
    + apply m_sorted_cons; [assumption|]. constructor; [assumption|].
      eapply Forall_impl; [|exact Hf]. intros a Ha. eapply key_lt_trans; eauto.
    + apply m_sorted_cons; [auto|].
      apply Forall_forall. intros x Hx. apply m_put_keys in Hx as [->|Hx].
      * now apply lex_gt_lt.
      * rewrite Forall_forall in Hf. auto.
Qed.

Lemma m_get_put k k' v m :
  m_get k' (m_put k v m) = if match lex (sk k') (sk k) with Eq => true | _ => false end
                           then Some v else m_get k' m.
Proof.
  induction m as [|[k1 v1] r IH]; cbn.
  - destruct (lex (sk k') (sk k)); auto.
  - destruct (lex (sk k) (sk k1)) eqn:E; cbn.
    + apply lex_sk_eq in E. subst. destruct (lex (sk k') (sk k1)); auto.
    + destruct (lex (sk k') (sk k)); auto.
    + rewrite IH. destruct (lex (sk k') (sk k1)) eqn:E1; auto.
      apply lex_sk_eq in E1. subst.
      destruct (lex (sk k1) (sk k)) eqn:E2; auto.
      apply lex_sk_eq in E2. subst. rewrite lex_refl in E. discriminate.
Qed.

Lemma m_get_put_eq k v m : m_get k (m_put k v m) = Some v.
Proof. rewrite m_get_put, lex_refl. reflexivity. Qed.

Lemma m_get_put_neq k k' v m : k' <> k -> m_get k' (m_put k v m) = m_get k' m.
Proof.
  intros H. rewrite m_get_put. destruct (lex (sk k') (sk k)) eqn:E; auto.
  apply lex_sk_eq in E. congruence.
Qed.

(** Two sorted maps with the same lookups are the same map. *)
Lemma m_ext m1 m2 :
  m_sorted m1 -> m_sorted m2 -> (forall k, m_get k m1 = m_get k m2) -> m1 = m2.
Proof.
  revert m2; induction m1 as [|[k1 v1] r1 IH]; intros [|[k2 v2] r2] H1 H2 H.
  - reflexivity.
  - specialize (H k2). cbn in H. rewrite lex_refl in H. discriminate.
  - specialize (H k1). cbn in H. rewrite lex_refl in H. discriminate.
  - apply m_sorted_inv in H1 as [H1 F1]. apply m_sorted_inv in H2 as [H2 F2].
    assert (Ek : k1 = k2).
    { destruct (lex (sk k1) (sk k2)) eqn:E.
      - now apply lex_sk_eq.
      - pose proof (H k1) as Hk. cbn in Hk. rewrite lex_refl, E in Hk.
        rewrite m_get_lt_none in Hk; [discriminate|].
        eapply Forall_impl; [|exact F2]. intros a Ha. eapply key_lt_trans; eauto.
      - apply lex_gt_lt in E.
        pose proof (H k2) as Hk. cbn in Hk. rewrite lex_refl, E in Hk.
        rewrite m_get_lt_none in Hk; [discriminate|].
        eapply Forall_impl; [|exact F1]. intros a Ha. eapply key_lt_trans; eauto. }
    subst k2.
    assert (Ev : v1 = v2).
    { specialize (H k1). cbn in H. rewrite lex_refl in H. congruence. }
    subst v2. f_equal. apply IH; auto.
    intros k. specialize (H k). cbn in H.
    destruct (lex (sk k) (sk k1)) eqn:E; auto.
    apply lex_sk_eq in E. subst. rewrite !m_get_lt_none; auto.
Qed.

(** Inserting a key above all others appends it. *)
Lemma m_put_last k v m :
  Forall (fun x => key_lt x k) (map fst m) -> m_put k v m = m ++ [(k, v)].
Proof.
  induction m as [|[k' v'] r IH]; intros H; cbn; auto.
  inversion H as [|? ? H1 H2]; subst. unfold key_lt in H1. cbn in H1.
  rewrite lex_antisym, H1. cbn. f_equal. auto.
Qed.

Lemma m_sorted_app_inv m1 k v m2 :
  m_sorted (m1 ++ (k, v) :: m2) ->
  Forall (fun x => key_lt x k) (map fst m1) /\ ~ In k (map fst m1) /\ ~ In k (map fst m2).
Proof.
  induction m1 as [|[k1 v1] r IH]; cbn; intros H.
  - apply m_sorted_inv in H as [H1 H2]. repeat split; auto.
    intros Hin. rewrite Forall_forall in H2. apply H2 in Hin.
    now apply lex_lt_irrefl in Hin.
  - apply m_sorted_inv in H as [H1 H2]. destruct (IH H1) as (Ha & Hb & Hc).
    assert (Hk : key_lt k1 k).
    { rewrite Forall_forall in H2. apply H2. rewrite map_app. apply in_or_app. right. now left. }
    repeat split; auto.
    intros [-> | Hin]; [now apply lex_lt_irrefl in Hk | tauto].
Qed.

(** Rebuilding a sorted map from its entries. *)
Lemma m_extend_sorted_app m1 m2 : m_sorted (m1 ++ m2) -> m_extend m1 m2 = m1 ++ m2.
Proof.
  unfold m_extend. revert m1; induction m2 as [|[k v] r IH]; intros m1 H; cbn.
  - now rewrite app_nil_r.
  - rewrite m_put_last by now apply m_sorted_app_inv in H.
    rewrite IH; rewrite <- app_assoc; auto.
Qed.

Lemma m_extend_nil m : m_sorted m -> m_extend [] m = m.
Proof. intros H. now apply (m_extend_sorted_app []). Qed.

Lemma m_extend_is_sorted m l : m_sorted m -> m_sorted (m_extend m l).
Proof.
  unfold m_extend. revert m; induction l as [|[k v] r IH]; intros m H; cbn; auto.
  apply IH. now apply m_put_sorted.
Qed.

Lemma m_get_extend k m l :
  m_sorted l ->
  m_get k (m_extend m l) = match m_get k l with Some v => Some v | None => m_get k m end.
Proof.
  unfold m_extend. revert m; induction l as [|[k1 v1] r IH]; intros m H; cbn; auto.
  apply m_sorted_inv in H as [H F]. rewrite IH by assumption.
  rewrite m_get_put.
  destruct (lex (sk k) (sk k1)) eqn:E.
  - apply lex_sk_eq in E. subst. now rewrite m_get_lt_none.
  - destruct (m_get k r); auto.
  - destruct (m_get k r); auto.
Qed.

Lemma m_get_extend_gen k m l :
  m_get k (m_extend m l) = match m_get k (m_extend [] l) with Some v => Some v | None => m_get k m end.
Proof.
  unfold m_extend. revert m; induction l as [|[k1 v1] r IH]; intros m; cbn; auto.
  rewrite IH. rewrite (IH [(k1, v1)]). rewrite m_get_put. cbn.
  destruct (m_get k (fold_left _ r [])); auto.
  destruct (lex (sk k) (sk k1)); auto.
Qed.

Lemma m_sorted_NoDup m : m_sorted m -> NoDup (map fst m).
Proof.
  unfold m_sorted. intros H. induction H as [|k l Hs IH Hf]; constructor; auto.
  intros Hin. rewrite Forall_forall in Hf. apply Hf in Hin. now apply lex_lt_irrefl in Hin.
Qed.

(** Inserting distinct keys commutes. *)
Lemma m_put_comm k1 v1 k2 v2 m :
  k1 <> k2 -> m_sorted m ->
  m_put k1 v1 (m_put k2 v2 m) = m_put k2 v2 (m_put k1 v1 m).
Proof.
  intros Hk Hs. apply m_ext; try (repeat apply m_put_sorted; assumption).
  intros k. rewrite !m_get_put.
  destruct (lex (sk k) (sk k1)) eqn:E1, (lex (sk k) (sk k2)) eqn:E2; auto.
  apply lex_sk_eq in E1. apply lex_sk_eq in E2. congruence.
Qed.

Lemma m_put_forall (P : K * V -> Prop) k v m :
  Forall P m -> P (k, v) -> Forall P (m_put k v m).
Proof.
  intros H Hp. induction H as [|[k' v'] r H1 H2 IH]; cbn; auto.
  destruct (lex (sk k) (sk k')); auto.
Qed.

Lemma m_put_nonempty k v m : m_put k v m <> [].
Proof. destruct m as [|[k' v'] r]; cbn; [discriminate|]. destruct (lex _ _); discriminate. Qed.

Lemma m_put_permutation k v m :
  m_get k m = None -> Permutation (m_put k v m) ((k, v) :: m).
Proof.
  induction m as [|[k' v'] r IH]; cbn; intros H; auto.
  destruct (lex (sk k) (sk k')) eqn:E; try discriminate; auto.
  etransitivity; [apply perm_skip; now apply IH|]. apply perm_swap.
Qed.

Lemma m_mem_put k k' v m :
  m_mem k' (m_put k v m) = (match lex (sk k') (sk k) with Eq => true | _ => false end || m_mem k' m)%bool.
Proof.
  unfold m_mem. rewrite m_get_put. destruct (lex (sk k') (sk k)); auto.
Qed.

End OMap.
