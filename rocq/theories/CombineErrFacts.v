(** Facts about the errors of combining. *)
From Verif Require Import Base OMap Consensus ConsensusFacts Ext Raw RawFacts TapTree Serialize SerializeFacts MapCodec
  V2Global V2Input V2Output V2Psbt SpecCodec SpecPsbt V2CodecFacts V2WireFacts SpecRoles V2Roles V2RolesFacts SpecCombine V2CombineFacts
  V0Error V0Input V0Output V0Psbt SpecPsbt0 V0PsbtFacts V0WireFacts V0PairFacts SpecCombine0 V0CombineFacts CombineMut SpecCombineErr.
Local Open Scope N_scope.

Section Xpubs.

Lemma merge_app l1 : forall l2 m, global_merge_xpubs (l1 ++ l2) m = (m' <- global_merge_xpubs l1 m ;; global_merge_xpubs l2 m').
Proof.
  induction l1 as [|[x k] l1 IH]; intros l2 m; cbn [app global_merge_xpubs bind]; [reflexivity|].
  destruct (global_merge_xpub x k m); cbn [bind]; auto.
Qed.

Lemma NoDup_app_remove_r {A} (l l' : list A) : NoDup (l ++ l') -> NoDup l.
Proof.
  induction l as [|a l IH]; cbn [app]; intros H; [constructor|]. inversion H as [|? ? N Q]; subst. constructor; [|auto].
  intros Hi. apply N. rewrite in_app_iff. auto.
Qed.
Lemma nested_err ka kb : (length (ks_path ka) <= length (ks_path kb))%nat -> ~ suffix (ks_path ka) (ks_path kb) -> ~ nested ka kb.
Proof.
  intros H N Q. apply merged_nested, merged_first in Q. destruct Q as [[Q1 _]|[_ Q2]]; [lia|tauto].
Qed.

Lemma merge_agree_ok l m : m_sorted sk_xpub m -> NoDup (map fst l) -> xpubs_agree m l -> exists m', global_merge_xpubs l m = Ok m'.
Proof.
  intros Sm Hn Ha. destruct (is_ok (global_merge_xpubs l m)) eqn:E; [destruct (global_merge_xpubs l m); try discriminate; eauto|].
  exfalso. destruct (merge_fail _ _ _ Hn eq_refl E) as (l1 & x & kb & l2 & ka & El & Hg & _ & Hd).
  assert (Q : nested ka kb).
  { apply (Ha x); [now apply (m_get_in _ sk_xpub_inj) in Hg|]. rewrite El, in_app_iff. right. now left. }
  apply merged_nested, merged_first in Q. destruct Hd as [(_ & Q1 & Q2)|(_ & Q1 & Q2)]; destruct Q as [[Q3 Q4]|[Q3 Q4]]; (lia || tauto).
Qed.
Lemma merge_ok_agree l m m' : m_sorted sk_xpub m -> NoDup (map fst l) -> global_merge_xpubs l m = Ok m' -> xpubs_agree m l.
Proof.
  intros Sm Hn H x ka kb Ha Hb. destruct (merge_get _ _ _ Hn H) as (_ & _ & G).
  destruct (G x ka kb Hb (m_in_get sk_xpub _ _ _ Sm Ha)) as (k & _ & M). apply merged_nested. eauto.
Qed.

Lemma merge_err_iff l m e : m_sorted sk_xpub m -> NoDup (map fst l) ->
  global_merge_xpubs l m = Err e <-> exists x, e = GCInconsistentKeySources x /\ xpub_conflict m l x.
Proof.
  intros Sm Hn. split.
  - intros H. destruct (merge_fail _ _ _ Hn H eq_refl) as (l1 & x & kb & l2 & ka & El & Hg & Hf & [(Q & _)|(Q & Q1 & Q2)]); [discriminate|].
    injection Q as ->. exists x. split; [reflexivity|]. exists l1, kb, l2, ka. split; [exact El|].
    split; [now apply (m_get_in _ sk_xpub_inj) in Hg|]. split; [exact Q1|]. split; [exact Q2|].
    intros y k k' Hi Hi'. apply merged_nested. rewrite Forall_forall in Hf. apply (Hf _ Hi'). cbn. now apply (m_in_get sk_xpub).
  - intros (x & -> & l1 & kb & l2 & ka & -> & Hi & Q1 & Q2 & Ha). rewrite map_app in Hn. cbn [map fst] in Hn.
    assert (Hn1 : NoDup (map fst l1)) by (now apply NoDup_app_remove_r in Hn).
    destruct (merge_agree_ok l1 m Sm Hn1 Ha) as (m1 & H1). rewrite merge_app, H1. cbn [bind global_merge_xpubs].
    destruct (merge_get _ _ _ Hn1 H1) as (G & _).
    assert (Hg : m_get sk_xpub x m1 = Some ka).
    { rewrite G; [now apply (m_in_get sk_xpub)|]. intros Q. apply NoDup_remove_2 in Hn. apply Hn. rewrite in_app_iff. auto. }
    pose proof (merge_step x ka kb m1 Hg) as S. apply nested_err in Q2 as Qn; [|exact Q1].
    inversion S as [D E|D _ E|D _ E|D _ E|D D' E]; [| | | |reflexivity]; exfalso.
    + apply Qn, merged_nested. exists ka. now left.
    + apply Qn, merged_nested. exists kb. now left.
    + apply Q2. exists []. now rewrite D.
    + lia.
Qed.

(** *** In place *)
Lemma mut_ok l : forall m m', merge_xpubs_mut l m = (m', Ok tt) <-> global_merge_xpubs l m = Ok m'.
Proof.
  induction l as [|[x k] l IH]; intros m m'; cbn [merge_xpubs_mut global_merge_xpubs].
  - split; [intros H; now injection H as ->|intros H; apply Ok_inj in H; now subst].
  - destruct (global_merge_xpub x k m); cbn [bind]; [apply IH| |]; split; intros H; try discriminate H; injection H; discriminate.
Qed.
Lemma mut_err l : forall m e, (exists m', merge_xpubs_mut l m = (m', Err e)) <-> global_merge_xpubs l m = Err e.
Proof.
  induction l as [|[x k] l IH]; intros m e; cbn [merge_xpubs_mut global_merge_xpubs].
  - split; [intros (m' & H); injection H; discriminate|discriminate].
  - destruct (global_merge_xpub x k m); cbn [bind]; [apply IH| |].
    + split; [intros (m' & H); now injection H as _ ->|intros H; injection H as ->; eauto].
    + split; [intros (m' & H); injection H; discriminate|discriminate].
Qed.
Lemma mut_panic l : forall m, (exists m', merge_xpubs_mut l m = (m', Panic)) <-> global_merge_xpubs l m = Panic.
Proof.
  induction l as [|[x k] l IH]; intros m; cbn [merge_xpubs_mut global_merge_xpubs].
  - split; [intros (m' & H); injection H; discriminate|discriminate].
  - destruct (global_merge_xpub x k m); cbn [bind]; [apply IH| |].
    + split; [intros (m' & H); injection H; discriminate|discriminate].
    + split; eauto.
Qed.
Lemma mut_stops l : forall m m' e, merge_xpubs_mut l m = (m', Err e) ->
  exists l1 x k l2, l = l1 ++ (x, k) :: l2 /\ global_merge_xpubs l1 m = Ok m' /\ global_merge_xpub x k m' = Err e.
Proof.
  induction l as [|[x k] l IH]; intros m m' e; cbn [merge_xpubs_mut].
  - intros H. injection H; discriminate.
  - destruct (global_merge_xpub x k m) as [m1|e1|] eqn:E; intros H.
    + destruct (IH _ _ _ H) as (l1 & y & k' & l2 & -> & H1 & H2). exists ((x, k) :: l1), y, k', l2.
      split; [reflexivity|]. split; [|exact H2]. cbn [global_merge_xpubs]. now rewrite E.
    + injection H as <- <-. exists [], x, k, l. auto.
    + injection H; discriminate.
Qed.
Lemma mut_goes l1 : forall m m' l, global_merge_xpubs l1 m = Ok m' -> merge_xpubs_mut (l1 ++ l) m = merge_xpubs_mut l m'.
Proof.
  induction l1 as [|[x k] l1 IH]; intros m m' l; cbn [global_merge_xpubs app merge_xpubs_mut].
  - intros H. apply Ok_inj in H. now subst.
  - destruct (global_merge_xpub x k m) as [m1|e1|]; cbn [bind]; try discriminate. apply IH.
Qed.

Lemma step_err x k m e : global_merge_xpub x k m = Err e -> e = GCInconsistentKeySources x.
Proof.
  intros H. destruct (m_get sk_xpub x m) as [a|] eqn:E; [|rewrite merge_step_new in H by assumption; discriminate].
  pose proof (merge_step x a k m E) as S. rewrite H in S. now inversion S.
Qed.

Lemma mut_merged l m m' e : m_sorted sk_xpub m -> NoDup (map fst l) -> merge_xpubs_mut l m = (m', Err e) ->
  exists x, e = GCInconsistentKeySources x /\ merged_before m l x m'.
Proof.
  intros Sm Hn H. destruct (mut_stops _ _ _ _ H) as (l1 & x & k & l2 & -> & H1 & H2). exists x. split; [now apply step_err in H2|].
  exists l1, k, l2. split; [reflexivity|]. rewrite map_app in Hn. apply NoDup_app_remove_r in Hn as Hn1.
  destruct (merge_get _ _ _ Hn1 H1) as (G1 & G2 & G3). pose proof (merge_sorted _ _ _ H1 Sm) as Sm'. split; [|split].
  - intros y v Hy. split; intros Hi; apply (m_get_in _ sk_xpub_inj).
    + rewrite <- (G1 y Hy). now apply (m_in_get sk_xpub).
    + rewrite (G1 y Hy). now apply (m_in_get sk_xpub).
  - intros y v Hi Ho. apply (m_get_in _ sk_xpub_inj). apply G2; [exact Hi|]. now apply (m_notin_get_none _ sk_xpub_inj).
  - intros y ka k' Ha Hi. destruct (G3 y ka k' Hi (m_in_get sk_xpub _ _ _ Sm Ha)) as (v & Hv & M). exists v.
    split; [now apply (m_get_in _ sk_xpub_inj)|exact M].
Qed.

(** Merging a second time changes nothing. *)
Lemma merged_twice a b k : merged a b k -> doc_merge k b (Some k).
Proof.
  intros [H|(_ & _ & ->)]; [|now apply DMEqual].
  inversion H; subst; [now apply DMEqual|now apply DMFirst|now apply DMEqual].
Qed.
Lemma step_keep x a b m : m_get sk_xpub x m = Some a -> doc_merge a b (Some a) -> global_merge_xpub x b m = Ok m.
Proof.
  intros Hg D. pose proof (merge_step x a b m Hg) as S. inversion S as [D' E|D' N E|D' N E|D' N E|D' N E]; [reflexivity|exfalso..].
  - inversion D; inversion D'; subst; try tauto; try lia.
  - inversion D; subst; [tauto|rewrite D' in *; lia|tauto].
  - inversion D; subst; try lia; tauto.
  - inversion D; subst; try lia. apply N. now exists [].
Qed.
Lemma mut_again l m m' e : NoDup (map fst l) -> merge_xpubs_mut l m = (m', Err e) -> merge_xpubs_mut l m' = (m', Err e).
Proof.
  intros Hn H. destruct (mut_stops _ _ _ _ H) as (l1 & x & k & l2 & -> & H1 & H2).
  rewrite map_app in Hn. apply NoDup_app_remove_r in Hn. destruct (merge_get _ _ _ Hn H1) as (_ & G2 & G3).
  assert (R : global_merge_xpubs l1 m' = Ok m').
  { assert (Q : forall l', incl l' l1 -> global_merge_xpubs l' m' = Ok m').
    { induction l' as [|[y v] l' IH]; intros I; [reflexivity|]. cbn [global_merge_xpubs].
      assert (Hi : In (y, v) l1) by (apply I; now left).
      assert (E : global_merge_xpub y v m' = Ok m').
      { destruct (m_get sk_xpub y m) as [a|] eqn:Eg.
        - destruct (G3 y a v Hi Eg) as (k' & Hk & M). exact (step_keep _ _ _ _ Hk (merged_twice _ _ _ M)).
        - exact (step_keep _ _ _ _ (G2 y v Hi Eg) (DMEqual _ _ eq_refl)). }
      rewrite E. cbn [bind]. apply IH. intros z Hz. apply I. now right. }
    exact (Q l1 (fun _ h => h)). }
  rewrite (mut_goes _ _ _ _ R). cbn [merge_xpubs_mut]. now rewrite H2.
Qed.
End Xpubs.

Section V2.
Context `{X : Ext} `{C : Cfg}.

Lemma global_err_iff a b e : sorted_global a -> sorted_global b -> global_combine a b = Err e <-> global_disagree a b e.
Proof.
  intros Sa Sb. unfold global_combine. destruct (g_version a =? g_version b) eqn:E1; cbn [negb fail_if bind].
  2:{ split; [intros H; injection H as <-; cbn; split; [lia|auto]|].
      destruct e; cbn; [intros (_ & -> & ->); reflexivity|intros (Q & _); lia|intros (Q & _); lia]. }
  destruct (g_tx_version a =? g_tx_version b) eqn:E2; cbn [negb fail_if bind].
  2:{ split; [intros H; injection H as <-; cbn; split; [lia|split; [lia|auto]]|].
      destruct e; cbn; [intros (Q & _); lia|intros (_ & _ & -> & ->); reflexivity|intros (_ & Q & _); lia]. }
  pose proof (merge_err_iff (g_xpubs b) (g_xpubs a) e (sg_xpubs _ Sa) (m_sorted_NoDup sk_xpub _ (sg_xpubs _ Sb))) as M.
  split.
  - destruct (global_merge_xpubs (g_xpubs b) (g_xpubs a)) as [m|e'|]; cbn [bind]; try discriminate. intros H. injection H as ->.
    destruct (proj1 M eq_refl) as (x & -> & Q). cbn. split; [lia|]. split; [lia|exact Q].
  - destruct e as [? ?|? ?|x]; cbn [global_disagree]; [intros (Q & _); lia|intros (_ & Q & _); lia|].
    intros (_ & _ & Q). rewrite (proj2 M); [reflexivity|eauto].
Qed.
Lemma global_ok_iff a b : sorted_global a -> sorted_global b -> (exists c, global_combine a b = Ok c) <-> globals_agree a b.
Proof.
  intros Sa Sb. pose proof (m_sorted_NoDup sk_xpub _ (sg_xpubs _ Sb)) as Nb. split.
  - intros (c & H). apply global_combine_ok in H as (E1 & E2 & H & _). split; [exact E1|]. split; [exact E2|].
    exact (merge_ok_agree _ _ _ (sg_xpubs _ Sa) Nb H).
  - intros (E1 & E2 & H). destruct (merge_agree_ok _ _ (sg_xpubs _ Sa) Nb H) as (m & Hm).
    unfold global_combine. rewrite E1, E2, !N.eqb_refl. cbn [negb fail_if bind]. rewrite Hm. cbn [bind]. eauto.
Qed.

Lemma input_err_iff i j e : input_combine i j = Err e <-> input_disagree i j e.
Proof.
  unfold input_combine. destruct (bytes_eqb (in_previous_txid i) (in_previous_txid j)) eqn:E1; cbn [negb fail_if bind].
  2:{ apply bytes_eqb_neq in E1. split; [intros H; injection H as <-; cbn; auto|].
      destruct e; cbn; [intros (_ & -> & ->); reflexivity|intros (Q & _); tauto]. }
  apply bytes_eqb_eq in E1. destruct (in_spent_output_index i =? in_spent_output_index j) eqn:E2; cbn [negb fail_if bind].
  2:{ split; [intros H; injection H as <-; cbn; split; [exact E1|split; [lia|auto]]|].
      destruct e; cbn; [intros (Q & _); tauto|intros (_ & _ & -> & ->); reflexivity]. }
  split; [discriminate|]. destruct e; cbn; [intros (Q & _); tauto|intros (_ & Q & _); lia].
Qed.
Lemma output_err_iff o o' e : output_combine o o' = Err e <-> output_disagree o o' e.
Proof.
  unfold output_combine. destruct (out_amount o =? out_amount o') eqn:E1; cbn [negb fail_if bind].
  2:{ split; [intros H; injection H as <-; cbn; split; [lia|auto]|].
      destruct e; cbn; [intros (_ & -> & ->); reflexivity|intros (Q & _); lia]. }
  destruct (bytes_eqb (out_script_pubkey o) (out_script_pubkey o')) eqn:E2; cbn [negb fail_if bind].
  2:{ apply bytes_eqb_neq in E2. split; [intros H; injection H as <-; cbn; split; [lia|auto]|].
      destruct e; cbn; [intros (Q & _); lia|intros (_ & _ & -> & ->); reflexivity]. }
  apply bytes_eqb_eq in E2. split; [discriminate|]. destruct e; cbn; [intros (Q & _); lia|intros (_ & Q & _); tauto].
Qed.

Lemma zip_err {E A} (f : A -> A -> res E A) (R : A -> A -> Prop) : (forall a b, (exists c, f a b = Ok c) <-> R a b) ->
  forall l l' e, combine_zip f l l' = Err e <-> exists n a b, first_at R l l' n a b /\ f a b = Err e.
Proof.
  intros HR. induction l as [|a l IH]; intros l' e.
  { split; [destruct l'; discriminate|]. intros ([|n] & x & y & (Q & _) & _); discriminate Q. }
  destruct l' as [|b l'].
  { split; [discriminate|]. intros ([|n] & x & y & (_ & Q & _) & _); discriminate Q. }
  cbn [combine_zip]. destruct (f a b) as [c|e'|] eqn:F; cbn [bind].
  - split.
    + intros H. assert (H' : combine_zip f l l' = Err e) by (destruct (combine_zip f l l'); cbn [bind] in H; try discriminate H; congruence).
      apply IH in H' as (n & x & y & (Q1 & Q2 & Q3) & Q4). exists (S n), x, y. split; [|exact Q4]. split; [exact Q1|]. split; [exact Q2|].
      intros [|m] x' y' Hm Hx Hy.
      * cbn in Hx, Hy. injection Hx as <-. injection Hy as <-. apply HR. eauto.
      * apply (Q3 m); auto. lia.
    + intros ([|n] & x & y & (Q1 & Q2 & Q3) & Q4).
      * cbn in Q1, Q2. injection Q1 as <-. injection Q2 as <-. congruence.
      * rewrite (proj2 (IH l' e)); [reflexivity|]. exists n, x, y. split; [|exact Q4]. split; [exact Q1|]. split; [exact Q2|].
        intros m x' y' Hm. apply (Q3 (S m)). lia.
  - split.
    + intros H. injection H as <-. exists O, a, b. split; [|exact F]. split; [reflexivity|]. split; [reflexivity|]. intros m x y Hm. lia.
    + intros ([|n] & x & y & (Q1 & Q2 & Q3) & Q4).
      * cbn in Q1, Q2. injection Q1 as <-. injection Q2 as <-. congruence.
      * exfalso. destruct (proj2 (HR a b)) as (c & Hc); [|congruence]. apply (Q3 O); [lia|reflexivity|reflexivity].
  - split; [discriminate|]. intros ([|n] & x & y & (Q1 & Q2 & Q3) & Q4).
    + cbn in Q1, Q2. injection Q1 as <-. injection Q2 as <-. congruence.
    + exfalso. destruct (proj2 (HR a b)) as (c & Hc); [|congruence]. apply (Q3 O); [lia|reflexivity|reflexivity].
Qed.
Lemma zip_ok_iff {E A} (f : A -> A -> res E A) (R : A -> A -> Prop) : (forall a b, (exists c, f a b = Ok c) <-> R a b) ->
  forall l l', (exists r, combine_zip f l l' = Ok r) <-> all_agree R l l'.
Proof.
  intros HR. induction l as [|a l IH]; intros l'.
  { split; [intros _ [|n] x y Q; discriminate Q|]. intros _. destruct l'; cbn; eauto. }
  destruct l' as [|b l'].
  { split; [intros _ [|n] x y _ Q; discriminate Q|]. cbn; eauto. }
  cbn [combine_zip]. split.
  - intros (r & H). destruct (f a b) as [c|e'|] eqn:F; cbn [bind] in H; try discriminate.
    destruct (combine_zip f l l') as [cs| |] eqn:Z; try discriminate.
    assert (Q : all_agree R l l') by (apply IH; eauto). intros [|n] x y; cbn; [|apply Q].
    intros Hx Hy. injection Hx as <-. injection Hy as <-. apply HR. eauto.
  - intros H. destruct (proj2 (HR a b) (H O a b eq_refl eq_refl)) as (c & ->). cbn [bind].
    destruct (proj2 (IH l')) as (r & ->); [|cbn [bind]; eauto]. intros n. apply (H (S n)).
Qed.

Lemma input_ok_iff i j : (exists c, input_combine i j = Ok c) <-> same_point i j.
Proof.
  rewrite input_combine_iff. unfold same_point, outpoint_of. split; [intros [-> ->]; reflexivity|intros H; injection H; auto].
Qed.
Lemma output_ok_iff o o' : (exists c, output_combine o o' = Ok c) <-> same_payment o o'.
Proof.
  rewrite output_combine_iff. unfold same_payment, payment_of. split; [intros [-> ->]; reflexivity|intros H; injection H; auto].
Qed.

Lemma combine_err_iff a b e : sorted_psbt a -> sorted_psbt b -> psbt_combine a b = Err e <-> disagree a b e.
Proof.
  intros (Sa & _) (Sb & _).
  pose proof (fun e => global_err_iff (p_global a) (p_global b) e Sa Sb) as Ge.
  pose proof (global_ok_iff (p_global a) (p_global b) Sa Sb) as Go.
  pose proof (zip_err input_combine same_point input_ok_iff (p_inputs a) (p_inputs b)) as Ie.
  pose proof (zip_ok_iff input_combine same_point input_ok_iff (p_inputs a) (p_inputs b)) as Io.
  pose proof (zip_err output_combine same_payment output_ok_iff (p_outputs a) (p_outputs b)) as Oe.
  unfold psbt_combine. split.
  - destruct (global_combine (p_global a) (p_global b)) as [g|ge|] eqn:G; cbn [map_err bind]; try discriminate.
    2:{ intros H. injection H as <-. now apply Ge. }
    assert (Ga : globals_agree (p_global a) (p_global b)) by (apply Go; eauto).
    destruct (combine_zip input_combine (p_inputs a) (p_inputs b)) as [is|ie|] eqn:I; cbn [map_err bind]; try discriminate.
    2:{ intros H. injection H as <-. split; [exact Ga|]. destruct (proj1 (Ie ie) eq_refl) as (n & i & j & F & Q).
        exists n, i, j. split; [exact F|]. now apply input_err_iff. }
    assert (Ia : all_agree same_point (p_inputs a) (p_inputs b)) by (apply Io; eauto).
    destruct (combine_zip output_combine (p_outputs a) (p_outputs b)) as [os|oe|] eqn:O; cbn [map_err bind]; try discriminate.
    intros H. injection H as <-. split; [exact Ga|]. split; [exact Ia|]. destruct (proj1 (Oe oe) eq_refl) as (n & i & j & F & Q).
    exists n, i, j. split; [exact F|]. now apply output_err_iff.
  - destruct e as [e|e|e]; cbn [disagree].
    + intros H. apply Ge in H. rewrite H. reflexivity.
    + intros (Ga & n & i & j & F & Q). apply Go in Ga as (g & ->). cbn [map_err bind].
      rewrite (proj2 (Ie e)); [reflexivity|]. exists n, i, j. split; [exact F|]. now apply input_err_iff.
    + intros (Ga & Ia & n & i & j & F & Q). apply Go in Ga as (g & ->). apply Io in Ia as (is & ->). cbn [map_err bind].
      rewrite (proj2 (Oe e)); [reflexivity|]. exists n, i, j. split; [exact F|]. now apply output_err_iff.
Qed.
Lemma combine_ok_iff a b : sorted_psbt a -> sorted_psbt b -> (exists c, psbt_combine a b = Ok c) <->
  globals_agree (p_global a) (p_global b) /\ all_agree same_point (p_inputs a) (p_inputs b) /\ all_agree same_payment (p_outputs a) (p_outputs b).
Proof.
  intros (Sa & _) (Sb & _).
  rewrite <- (global_ok_iff (p_global a) (p_global b) Sa Sb).
  rewrite <- (zip_ok_iff input_combine same_point input_ok_iff (p_inputs a) (p_inputs b)).
  rewrite <- (zip_ok_iff output_combine same_payment output_ok_iff (p_outputs a) (p_outputs b)).
  unfold psbt_combine. split.
  - intros (c & H). destruct (global_combine _ _) as [g| |]; cbn [map_err bind] in H; try discriminate.
    destruct (combine_zip input_combine _ _) as [is| |]; cbn [map_err bind] in H; try discriminate.
    destruct (combine_zip output_combine _ _) as [os| |]; cbn [map_err bind] in H; try discriminate. split; [eauto|]. split; eauto.
  - intros ((g & ->) & (is & ->) & (os & ->)). cbn [map_err bind]. eauto.
Qed.

(** *** In place *)
Lemma global_mut_ok a b c : global_combine_mut a b = (c, Ok tt) <-> global_combine a b = Ok c.
Proof.
  unfold global_combine_mut, global_combine. destruct (g_version a =? g_version b); cbn [negb fail_if bind].
  2:{ split; [intros H; injection H; discriminate|discriminate]. }
  destruct (g_tx_version a =? g_tx_version b); cbn [negb fail_if bind].
  2:{ split; [intros H; injection H; discriminate|discriminate]. }
  destruct (merge_xpubs_mut (g_xpubs b) (g_xpubs a)) as [m [[]|e|]] eqn:M.
  - apply mut_ok in M. rewrite M. cbn [bind]. split; [intros H; injection H as <-; reflexivity|intros H; apply Ok_inj in H; now rewrite H].
  - rewrite (proj1 (mut_err _ _ _) (ex_intro _ m M)). cbn [bind]. split; [intros H; injection H; discriminate|discriminate].
  - rewrite (proj1 (mut_panic _ _) (ex_intro _ m M)). cbn [bind]. split; [intros H; injection H; discriminate|discriminate].
Qed.
Lemma global_mut_err a b e : (exists c, global_combine_mut a b = (c, Err e)) <-> global_combine a b = Err e.
Proof.
  unfold global_combine_mut, global_combine. destruct (g_version a =? g_version b); cbn [negb fail_if bind].
  2:{ split; [intros (c & H); injection H as _ ->; reflexivity|intros H; injection H as <-; eauto]. }
  destruct (g_tx_version a =? g_tx_version b); cbn [negb fail_if bind].
  2:{ split; [intros (c & H); injection H as _ ->; reflexivity|intros H; injection H as <-; eauto]. }
  destruct (merge_xpubs_mut (g_xpubs b) (g_xpubs a)) as [m [[]|e'|]] eqn:M.
  - apply mut_ok in M. rewrite M. cbn [bind]. split; [intros (c & H); injection H; discriminate|discriminate].
  - rewrite (proj1 (mut_err _ _ _) (ex_intro _ m M)). cbn [bind].
    split; [intros (c & H); injection H as _ ->; reflexivity|intros H; injection H as <-; eauto].
  - rewrite (proj1 (mut_panic _ _) (ex_intro _ m M)). cbn [bind]. split; [intros (c & H); injection H; discriminate|discriminate].
Qed.
Lemma global_mut_left a b c e : global_combine_mut a b = (c, Err e) ->
  c = a /\ ~ (exists x, e = GCInconsistentKeySources x)
  \/ exists xs, g_version a = g_version b /\ g_tx_version a = g_tx_version b
       /\ merge_xpubs_mut (g_xpubs b) (g_xpubs a) = (xs, Err e) /\ c = set_g_xpubs a xs.
Proof.
  unfold global_combine_mut. destruct (g_version a =? g_version b) eqn:E1; cbn [negb].
  2:{ intros H. injection H as <- <-. left. split; [reflexivity|]. intros (x & Q). discriminate. }
  destruct (g_tx_version a =? g_tx_version b) eqn:E2; cbn [negb].
  2:{ intros H. injection H as <- <-. left. split; [reflexivity|]. intros (x & Q). discriminate. }
  destruct (merge_xpubs_mut (g_xpubs b) (g_xpubs a)) as [m [[]|e'|]] eqn:M; intros H; try (injection H; discriminate).
  injection H as <- <-. right. exists m. split; [lia|]. split; [lia|]. auto.
Qed.
End V2.

Section V0.
Context `{X : Ext} `{C : Cfg}.

Lemma mut0_eq l : forall m, merge_xpubs0_mut l m = (fst (merge_xpubs_mut l m), map_err gcerr0 (snd (merge_xpubs_mut l m))).
Proof.
  induction l as [|[x k] l IH]; intros m; cbn [merge_xpubs0_mut merge_xpubs_mut]; [reflexivity|].
  rewrite merge_xpub0_eq. destruct (global_merge_xpub x k m); cbn [map_err]; auto.
Qed.

Lemma combine0_err_iff a b e : sorted_psbt0 a -> sorted_psbt0 b -> psbt0_combine a b = Err e <-> disagree0 a b e.
Proof.
  intros Sa Sb. pose proof (fun e => merge_err_iff (p0_xpub b) (p0_xpub a) e (sp0_xpub _ Sa) (m_sorted_NoDup sk_xpub _ (sp0_xpub _ Sb))) as M.
  split.
  - intros H. apply psbt0_combine_err in H as [H|(E & e' & Q & ->)]; [left; exact H|]. right. split; [exact E|].
    apply M in Q as (x & -> & Q). exists x. auto.
  - unfold psbt0_combine. intros [(N & ->)|(E & x & -> & Q)]; destruct (tx_dec (p0_unsigned_tx a) (p0_unsigned_tx b)); try tauto.
    rewrite merge_xpubs0_eq, (proj2 (M (GCInconsistentKeySources x))); [reflexivity|eauto].
Qed.

Lemma mut0_ok a b c : psbt0_combine_mut a b = (c, Ok tt) <-> psbt0_combine a b = Ok c.
Proof.
  unfold psbt0_combine_mut, psbt0_combine. destruct (tx_dec _ _).
  2:{ split; [intros H; injection H; discriminate|discriminate]. }
  rewrite mut0_eq, merge_xpubs0_eq. cbv zeta. destruct (merge_xpubs_mut (p0_xpub b) (p0_xpub a)) as [m [[]|e'|]] eqn:M; cbn [fst snd map_err].
  - apply mut_ok in M. rewrite M. cbn [map_err bind]. split; [intros H; injection H as <-; reflexivity|intros H; apply Ok_inj in H; now rewrite H].
  - rewrite (proj1 (mut_err _ _ _) (ex_intro _ m M)). cbn [map_err bind]. split; [intros H; injection H; discriminate|discriminate].
  - rewrite (proj1 (mut_panic _ _) (ex_intro _ m M)). cbn [map_err bind]. split; [intros H; injection H; discriminate|discriminate].
Qed.
Lemma mut0_err a b e : (exists c, psbt0_combine_mut a b = (c, Err e)) <-> psbt0_combine a b = Err e.
Proof.
  unfold psbt0_combine_mut, psbt0_combine. destruct (tx_dec _ _).
  2:{ split; [intros (c & H); injection H as _ ->; reflexivity|intros H; injection H as <-; eauto]. }
  rewrite mut0_eq, merge_xpubs0_eq. cbv zeta. destruct (merge_xpubs_mut (p0_xpub b) (p0_xpub a)) as [m [[]|e'|]] eqn:M; cbn [fst snd map_err].
  - apply mut_ok in M. rewrite M. cbn [map_err bind]. split; [intros (c & H); injection H; discriminate|discriminate].
  - rewrite (proj1 (mut_err _ _ _) (ex_intro _ m M)). cbn [map_err bind].
    split; [intros (c & H); injection H as _ ->; reflexivity|intros H; injection H as <-; eauto].
  - rewrite (proj1 (mut_panic _ _) (ex_intro _ m M)). cbn [map_err bind]. split; [intros (c & H); injection H; discriminate|discriminate].
Qed.
Lemma mut0_left a b c e : psbt0_combine_mut a b = (c, Err e) ->
  c = a /\ ~ (exists x, e = E0CombineInconsistentKeySources x)
  \/ exists xs e', p0_unsigned_tx a = p0_unsigned_tx b /\ merge_xpubs_mut (p0_xpub b) (p0_xpub a) = (xs, Err e') /\ e = gcerr0 e'
       /\ c = Psbt0 (p0_unsigned_tx a) (N.max (p0_version a) (p0_version b)) xs (p0_proprietary a) (p0_unknown a) (p0_inputs a) (p0_outputs a).
Proof.
  unfold psbt0_combine_mut. destruct (tx_dec _ _) as [E|N].
  2:{ intros H. injection H as <- <-. left. split; [reflexivity|]. intros (x & Q). discriminate. }
  rewrite mut0_eq. cbv zeta. destruct (merge_xpubs_mut (p0_xpub b) (p0_xpub a)) as [m [[]|e'|]] eqn:M; cbn [fst snd map_err]; intros H;
    try (injection H; discriminate).
  injection H as <- <-. right. exists m, e'. auto.
Qed.
Lemma mut0_again a b c e : NoDup (map fst (p0_xpub b)) -> psbt0_combine_mut a b = (c, Err e) -> psbt0_combine_mut c b = (c, Err e).
Proof.
  intros Hn H. apply mut0_left in H as H'. destruct H' as [(-> & _)|(xs & e' & E & M & -> & ->)]; [exact H|].
  apply (mut_again _ _ _ _ Hn) in M. unfold psbt0_combine_mut. cbn [p0_unsigned_tx p0_version p0_xpub p0_proprietary p0_unknown p0_inputs p0_outputs].
  destruct (tx_dec _ _) as [_|N]; [|tauto]. rewrite mut0_eq, M. cbn [fst snd map_err]. cbv zeta.
  replace (N.max (N.max (p0_version a) (p0_version b)) (p0_version b)) with (N.max (p0_version a) (p0_version b)) by lia. reflexivity.
Qed.
Lemma global_mut_again a b c e : NoDup (map fst (g_xpubs b)) -> global_combine_mut a b = (c, Err e) -> global_combine_mut c b = (c, Err e).
Proof.
  intros Hn H. apply global_mut_left in H as H'. destruct H' as [(-> & _)|(xs & E1 & E2 & M & ->)]; [exact H|].
  apply (mut_again _ _ _ _ Hn) in M. unfold global_combine_mut, set_g_xpubs.
  cbn [g_version g_tx_version g_xpubs g_fallback_lock_time g_tx_modifiable_flags g_input_count g_output_count g_sp_ecdh_shares g_sp_dleq_proofs g_proprietaries g_unknowns].
  rewrite E1, E2, !N.eqb_refl. cbn [negb]. rewrite M. reflexivity.
Qed.
End V0.
