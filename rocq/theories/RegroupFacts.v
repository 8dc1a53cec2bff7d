(** Facts about combining three PSBTs in different groupings (src/v2/mod.rs:675-687,
    src/v0/bitcoin/mod.rs:224-287). *)
From Verif Require Import Base OMap Consensus ConsensusFacts Ext Raw RawFacts TapTree TapTreeFacts
  Serialize SerializeFacts MapCodec MapFacts V2Global V2Input V2Output V2Psbt V2Roles
  V0Error V0Input V0Output V0Psbt SpecPsbt SpecPsbt0 SpecCombine SpecCombine0 SpecRegroup V2CombineFacts V0CombineFacts.
Local Open Scope N_scope.

(** ** Fields *)
Lemma comb_opt_assoc {A} (a b c : option A) : comb_opt (comb_opt a b) c = comb_opt a (comb_opt b c).
Proof. now destruct a, b, c. Qed.
Lemma m_get_comb_map {K V} (sk : K -> list N) (inj_sk : forall a b, sk a = sk b -> a = b) (a b : list (K * V)) k :
  m_sorted sk b -> m_get sk k (comb_map sk a b) = comb_opt (m_get sk k b) (m_get sk k a).
Proof.
  intros Sb. unfold comb_map. rewrite (m_get_extend sk inj_sk) by assumption. now destruct (m_get sk k b).
Qed.
Lemma comb_map_assoc {K V} (sk : K -> list N) (inj_sk : forall a b, sk a = sk b -> a = b) (a b c : list (K * V)) :
  m_sorted sk a -> m_sorted sk b -> m_sorted sk c ->
  comb_map sk (comb_map sk a b) c = comb_map sk a (comb_map sk b c).
Proof.
  intros Sa Sb Sc. assert (Sab : m_sorted sk (comb_map sk a b)) by now apply m_extend_is_sorted.
  assert (Sbc : m_sorted sk (comb_map sk b c)) by now apply m_extend_is_sorted.
  apply (m_ext sk inj_sk); [now apply m_extend_is_sorted..|]. intros k.
  rewrite !(m_get_comb_map sk inj_sk) by assumption. apply eq_sym, comb_opt_assoc.
Qed.

(** ** Utxos *)

(** The non-witness utxo for the two groupings. *)
Definition comb_utxo (wa wb : option txout) (na nb : option tx) : option tx * option txout :=
  match wa, wb with
  | None, Some u => (None, Some u)
  | w, _ => (comb_opt na nb, w)
  end.
Lemma comb_utxo_witness wa wb wc na nb nc :
  snd (comb_utxo (snd (comb_utxo wa wb na nb)) wc (fst (comb_utxo wa wb na nb)) nc) =
  snd (comb_utxo wa (snd (comb_utxo wb wc nb nc)) na (fst (comb_utxo wb wc nb nc))).
Proof. now destruct wa, wb, wc. Qed.
Lemma comb_utxo_regroup wa wb wc na nb nc :
  fst (comb_utxo (snd (comb_utxo wa wb na nb)) wc (fst (comb_utxo wa wb na nb)) nc) =
  fst (comb_utxo wa (snd (comb_utxo wb wc nb nc)) na (fst (comb_utxo wb wc nb nc)))
  <-> regroupable wa wb wc na nb nc.
Proof.
  unfold regroupable.
  destruct wa as [wa|], wb as [wb|], wc as [wc|], na as [na|], nb as [nb|], nc as [nc|]; cbn; intuition congruence.
Qed.

(** ** Key sources *)
Definition longer (a b : keysource) : keysource := if (length (ks_path b) <? length (ks_path a))%nat then a else b.
Definition opt_longer (a b : option keysource) : option keysource :=
  match a, b with Some a, Some b => Some (longer a b) | None, o => o | o, None => o end.

Lemma longer_assoc a b c : longer (longer a b) c = longer a (longer b c).
Proof.
  unfold longer.
  destruct (Nat.ltb_spec (length (ks_path b)) (length (ks_path a))) as [E1|E1],
    (Nat.ltb_spec (length (ks_path c)) (length (ks_path b))) as [E2|E2]; try reflexivity.
  - now rewrite (proj2 (Nat.ltb_lt (length (ks_path c)) (length (ks_path a)))), (proj2 (Nat.ltb_lt _ _) E1) by lia.
  - now rewrite (proj2 (Nat.ltb_ge (length (ks_path b)) (length (ks_path a))) E1).
  - now rewrite !(proj2 (Nat.ltb_ge _ _)) by lia.
Qed.
Lemma opt_longer_assoc a b c : opt_longer (opt_longer a b) c = opt_longer a (opt_longer b c).
Proof. destruct a, b, c; cbn; try reflexivity. now rewrite longer_assoc. Qed.
Lemma merged_longer a b k : merged a b k -> k = longer a b.
Proof.
  unfold longer. intros [H|(H & _ & ->)].
  - inversion H; subst.
    + now rewrite Nat.ltb_irrefl.
    + now rewrite (proj2 (Nat.ltb_lt _ _)).
    + now rewrite (proj2 (Nat.ltb_ge _ _)) by lia.
  - now rewrite H, Nat.ltb_irrefl.
Qed.
Lemma suffix_of_two {A} (s t l : list A) : suffix s l -> suffix t l -> suffix s t \/ suffix t s.
Proof.
  revert s t. induction l as [|x l IH]; intros s t [p Ep] [q Eq].
  - destruct p, s; try discriminate. left. now exists t; rewrite app_nil_r.
  - destruct p as [|y p].
    + cbn in Ep. subst s. right. now exists q.
    + destruct q as [|z q].
      * cbn in Eq. subst t. left. now exists (y :: p).
      * injection Ep as -> Ep. injection Eq as -> Eq. apply IH; [now exists p|now exists q].
Qed.
Lemma suffix_trans {A} (s t l : list A) : suffix s t -> suffix t l -> suffix s l.
Proof. intros [p ->] [q ->]. exists (q ++ p). apply app_assoc. Qed.
Lemma suffix_len {A} (s l : list A) : suffix s l -> (length s <= length l)%nat.
Proof. intros [p ->]. rewrite app_length. lia. Qed.
Lemma nested_sym a b : nested a b -> nested b a.
Proof. unfold nested. tauto. Qed.
Lemma nested_longer a b : nested a b -> suffix (ks_path a) (ks_path (longer a b)) /\ suffix (ks_path b) (ks_path (longer a b)).
Proof.
  intros H. unfold longer. destruct (Nat.ltb_spec (length (ks_path b)) (length (ks_path a))) as [E|E].
  - split; [now exists []|]. destruct H as [H|H]; auto. apply suffix_len in H. lia.
  - split; [|now exists []]. destruct H as [H|H]; auto. pose proof (suffix_len _ _ H) as Hl.
    apply suffix_same_len in H; [|lia]. rewrite H. now exists [].
Qed.
Lemma nested_longer_iff a b c : nested a b /\ nested (longer a b) c <-> nested a b /\ nested a c /\ nested b c.
Proof.
  split.
  - intros [H Hc]. split; auto. destruct (nested_longer a b H) as [Sa Sb].
    destruct Hc as [Hc|Hc].
    + split; left; eapply suffix_trans; eauto.
    + split; unfold nested; eapply suffix_of_two; eauto.
  - intros (H & Ha & Hb). split; auto. unfold longer. now destruct (_ <? _)%nat.
Qed.

Lemma merge_ok_iff a b m : m_sorted sk_xpub a -> m_sorted sk_xpub b ->
  (global_merge_xpubs b a = Ok m <-> m_sorted sk_xpub m /\
    (forall x, m_get sk_xpub x m = opt_longer (m_get sk_xpub x a) (m_get sk_xpub x b)) /\
    (forall x ka kb, m_get sk_xpub x a = Some ka -> m_get sk_xpub x b = Some kb -> nested ka kb)).
Proof.
  intros Sa Sb.
  assert (F : forall m, global_merge_xpubs b a = Ok m -> m_sorted sk_xpub m /\
    (forall x, m_get sk_xpub x m = opt_longer (m_get sk_xpub x a) (m_get sk_xpub x b)) /\
    (forall x ka kb, m_get sk_xpub x a = Some ka -> m_get sk_xpub x b = Some kb -> nested ka kb)).
  { clear m. intros m H. split; [now apply (merge_sorted _ _ _ H)|].
    destruct (merge_get b a m (m_sorted_NoDup sk_xpub b Sb) H) as (H1 & H2 & H3). split.
    - intros x. destruct (m_get sk_xpub x b) as [kb|] eqn:Eb.
      + apply (m_get_in sk_xpub sk_xpub_inj) in Eb. destruct (m_get sk_xpub x a) as [ka|] eqn:Ea; cbn.
        * destruct (H3 _ _ _ Eb Ea) as (k & -> & Hk). now rewrite (merged_longer _ _ _ Hk).
        * auto.
      + rewrite H1; [now destruct (m_get sk_xpub x a)|]. now apply (m_get_none_notin sk_xpub).
    - intros x ka kb Ea Eb. apply (m_get_in sk_xpub sk_xpub_inj) in Eb. destruct (H3 _ _ _ Eb Ea) as (k & _ & Hk).
      apply merged_nested. eauto. }
  split; [apply F|]. intros (Sm & Hg & Hn).
  destruct (merge_nested a b Sa Sb) as [m' Hm].
  { intros x ka kb Ha Hb. apply (Hn x); now apply (m_in_get sk_xpub). }
  rewrite Hm. f_equal. destruct (F _ Hm) as (Sm' & Hg' & _).
  apply (m_ext sk_xpub sk_xpub_inj); auto. intros x. now rewrite Hg, Hg'.
Qed.
Lemma merge_assoc a b c m : m_sorted sk_xpub a -> m_sorted sk_xpub b -> m_sorted sk_xpub c ->
  ((ab <- global_merge_xpubs b a ;; global_merge_xpubs c ab) = Ok m <->
   (bc <- global_merge_xpubs c b ;; global_merge_xpubs bc a) = Ok m).
Proof.
  intros Sa Sb Sc. split; intros H; apply bind_ok in H as (ab & H1 & H2).
  - apply (merge_ok_iff a b ab Sa Sb) in H1 as (Sab & Gab & Nab).
    apply (merge_ok_iff ab c m Sab Sc) in H2 as (Sm & Gm & Nm).
    assert (Q : forall x ka kb, m_get sk_xpub x a = Some ka -> m_get sk_xpub x b = Some kb -> nested ka kb) by exact Nab.
    assert (Nbc : forall x kb kc, m_get sk_xpub x b = Some kb -> m_get sk_xpub x c = Some kc -> nested kb kc).
    { intros x kb kc Eb Ec. destruct (m_get sk_xpub x a) as [ka|] eqn:Ea.
      - apply (nested_longer_iff ka kb kc). split; [eapply Nab; eauto|]. apply (Nm x); auto. now rewrite Gab, Ea, Eb.
      - apply (Nm x); auto. now rewrite Gab, Ea, Eb. }
    destruct (merge_nested b c Sb Sc) as [bc Hbc].
    { intros x kb kc Hb Hc. apply (Nbc x); now apply (m_in_get sk_xpub). }
    rewrite Hbc. cbn [bind]. apply (merge_ok_iff b c bc Sb Sc) in Hbc as (Sbc & Gbc & _).
    apply merge_ok_iff; auto. split; auto. split.
    + intros x. now rewrite Gm, Gab, Gbc, opt_longer_assoc.
    + intros x ka k Ea Ek. rewrite Gbc in Ek.
      destruct (m_get sk_xpub x b) as [kb|] eqn:Eb, (m_get sk_xpub x c) as [kc|] eqn:Ec; cbn in Ek; try discriminate; injection Ek as <-.
      * assert (Hn : nested ka kb /\ nested (longer ka kb) kc).
        { split; [eapply Nab; eauto|]. apply (Nm x); auto. now rewrite Gab, Ea, Eb. }
        apply nested_longer_iff in Hn as (N1 & N2 & N3).
        apply nested_sym, nested_longer_iff. auto using nested_sym.
      * eapply Nab; eauto.
      * apply (Nm x); auto. now rewrite Gab, Ea, Eb.
  - rename ab into bc. apply (merge_ok_iff b c bc Sb Sc) in H1 as (Sbc & Gbc & Nbc).
    apply (merge_ok_iff a bc m Sa Sbc) in H2 as (Sm & Gm & Nm).
    assert (Nab : forall x ka kb, m_get sk_xpub x a = Some ka -> m_get sk_xpub x b = Some kb -> nested ka kb).
    { intros x ka kb Ea Eb. destruct (m_get sk_xpub x c) as [kc|] eqn:Ec.
      - apply nested_sym, (nested_longer_iff kb kc ka). split; [eapply Nbc; eauto|]. apply nested_sym, (Nm x); auto. now rewrite Gbc, Eb, Ec.
      - apply (Nm x); auto. now rewrite Gbc, Eb, Ec. }
    destruct (merge_nested a b Sa Sb) as [ab Hab].
    { intros x ka kb Ha Hb. apply (Nab x); now apply (m_in_get sk_xpub). }
    rewrite Hab. cbn [bind]. apply (merge_ok_iff a b ab Sa Sb) in Hab as (Sab & Gab & _).
    apply merge_ok_iff; auto. split; auto. split.
    + intros x. now rewrite Gm, Gab, Gbc, opt_longer_assoc.
    + intros x k kc Ek Ec. rewrite Gab in Ek.
      destruct (m_get sk_xpub x a) as [ka|] eqn:Ea, (m_get sk_xpub x b) as [kb|] eqn:Eb; cbn in Ek; try discriminate; injection Ek as <-.
      * apply nested_longer_iff. assert (Hn : nested kb kc /\ nested (longer kb kc) ka).
        { split; [eapply Nbc; eauto|]. apply nested_sym, (Nm x); auto. now rewrite Gbc, Eb, Ec. }
        apply nested_longer_iff in Hn as (N1 & N2 & N3). auto using nested_sym.
      * apply (Nm x); auto. now rewrite Gbc, Eb, Ec.
      * eapply Nbc; eauto.
Qed.

(** ** Lists *)
Section Zip.
Context {E A K : Type} (f : A -> A -> res E A) (g : A -> A -> A) (key : A -> K).
Hypothesis f_ok : forall a b c, f a b = Ok c <-> key a = key b /\ c = g a b.
Hypothesis g_key : forall a b, key (g a b) = key a.

Lemma zip_combine_key : forall l m, map key (zip_combine g l m) = map key l.
Proof. induction l as [|a l IH]; intros [|b m]; cbn; auto. now rewrite g_key, IH. Qed.
Lemma combine_zip_iff : forall l m r, length l = length m ->
  (combine_zip f l m = Ok r <-> map key l = map key m /\ r = zip_combine g l m).
Proof.
  induction l as [|a l IH]; intros [|b m] r Hl; try discriminate Hl; cbn.
  - split; [intros H; apply Ok_inj in H; auto|intros [_ ->]; auto].
  - injection Hl as Hl. split.
    + intros H. apply bind_ok in H as (c & H1 & H). apply bind_ok in H as (cs & H2 & H). apply Ok_inj in H. subst r.
      apply f_ok in H1 as [-> ->]. apply (IH _ _ Hl) in H2 as [-> ->]. auto.
    + intros [H ->]. injection H as H1 H2. rewrite (proj2 (f_ok a b _) (conj H1 eq_refl)). cbn [bind].
      rewrite (proj2 (IH _ _ Hl) (conj H2 eq_refl)). reflexivity.
Qed.
Lemma zip_left l m n r : length l = length m -> length m = length n ->
  (left_first (combine_zip f) l m n = Ok r <->
   (map key l = map key m /\ map key m = map key n) /\ r = zip_combine g (zip_combine g l m) n).
Proof.
  intros L1 L2. unfold left_first. split.
  - intros H. apply bind_ok in H as (ab & H1 & H2). apply combine_zip_iff in H1 as [E1 ->]; auto.
    apply combine_zip_iff in H2 as [E2 ->]; [|rewrite zip_combine_length; congruence].
    rewrite zip_combine_key in E2. split; auto. split; congruence.
  - intros [[E1 E2] ->]. rewrite (proj2 (combine_zip_iff l m _ L1) (conj E1 eq_refl)). cbn [bind].
    apply combine_zip_iff; [rewrite zip_combine_length; congruence|]. rewrite zip_combine_key. split; congruence.
Qed.
Lemma zip_right l m n r : length l = length m -> length m = length n ->
  (right_first (combine_zip f) l m n = Ok r <->
   (map key l = map key m /\ map key m = map key n) /\ r = zip_combine g l (zip_combine g m n)).
Proof.
  intros L1 L2. unfold right_first. split.
  - intros H. apply bind_ok in H as (bc & H1 & H2). apply combine_zip_iff in H1 as [E1 ->]; auto.
    apply combine_zip_iff in H2 as [E2 ->]; [|rewrite zip_combine_length; congruence].
    rewrite zip_combine_key in E2. split; auto.
  - intros [[E1 E2] ->]. rewrite (proj2 (combine_zip_iff m n _ L2) (conj E2 eq_refl)). cbn [bind].
    apply combine_zip_iff; [rewrite zip_combine_length; congruence|]. rewrite zip_combine_key. split; congruence.
Qed.
End Zip.

Lemma nth3_cons {A} (R : A -> A -> A -> Prop) a b c l m n :
  nth3 R (a :: l) (b :: m) (c :: n) <-> R a b c /\ nth3 R l m n.
Proof.
  split.
  - intros H. split; [now apply (H 0%nat)|]. intros x. apply (H (S x)).
  - intros [H1 H2] [|x] a' b' c'; cbn; [intros [= <-] [= <-] [= <-]; auto|apply H2].
Qed.
Lemma zip_regroup {A B} (g : A -> A -> A) (h : A -> B) (P : A -> Prop) (R : A -> A -> A -> Prop) :
  (forall a b c, P a -> P b -> P c -> (h (g (g a b) c) = h (g a (g b c)) <-> R a b c)) ->
  forall l m n, length l = length m -> length m = length n -> Forall P l -> Forall P m -> Forall P n ->
  (map h (zip_combine g (zip_combine g l m) n) = map h (zip_combine g l (zip_combine g m n)) <-> nth3 R l m n).
Proof.
  intros Hg. induction l as [|a l IH]; intros [|b m] [|c n] L1 L2 Pl Pm Pn; try discriminate L1; try discriminate L2.
  - cbn. split; auto. intros _ [|x] a b c H; discriminate H.
  - injection L1 as L1. injection L2 as L2. inversion_clear Pl; inversion_clear Pm; inversion_clear Pn. cbn.
    rewrite nth3_cons, <- (Hg a b c), <- (IH m n) by assumption. split; [intros Q; injection Q; auto|intros [-> ->]; auto].
Qed.
Lemma zip_regroup_id {A} (g : A -> A -> A) (P : A -> Prop) (R : A -> A -> A -> Prop) :
  (forall a b c, P a -> P b -> P c -> (g (g a b) c = g a (g b c) <-> R a b c)) ->
  forall l m n, length l = length m -> length m = length n -> Forall P l -> Forall P m -> Forall P n ->
  (zip_combine g (zip_combine g l m) n = zip_combine g l (zip_combine g m n) <-> nth3 R l m n).
Proof. intros Hg l m n L1 L2 Pl Pm Pn. rewrite <- (zip_regroup g (fun x => x) P R Hg l m n) by assumption. now rewrite !map_id. Qed.

Ltac maps_assoc := first
  [apply (comb_map_assoc bkey bkey_inj)|apply (comb_map_assoc sk_propkey sk_propkey_inj)|apply (comb_map_assoc sk_key sk_key_inj)
  |apply (comb_map_assoc sk_pubkey sk_pubkey_inj)|apply (comb_map_assoc sk_xleaf sk_xleaf_inj)
  |apply (comb_map_assoc sk_controlblock sk_controlblock_inj)]; assumption.

(** ** v2 *)
Section V2.
Context `{X : Ext} `{C : Cfg}.

Definition join_input (self other : input) : input :=
  Input (in_previous_txid self) (in_spent_output_index self)
        (comb_opt (in_sequence self) (in_sequence other))
        (comb_opt (in_min_time self) (in_min_time other))
        (comb_opt (in_min_height self) (in_min_height other))
        (fst (comb_utxo (in_witness_utxo self) (in_witness_utxo other) (in_non_witness_utxo self) (in_non_witness_utxo other)))
        (snd (comb_utxo (in_witness_utxo self) (in_witness_utxo other) (in_non_witness_utxo self) (in_non_witness_utxo other)))
        (comb_map sk_pubkey (in_partial_sigs self) (in_partial_sigs other))
        (in_sighash_type self)
        (comb_opt (in_redeem_script self) (in_redeem_script other))
        (comb_opt (in_witness_script self) (in_witness_script other))
        (comb_map bkey (in_bip32_derivations self) (in_bip32_derivations other))
        (comb_opt (in_final_script_sig self) (in_final_script_sig other))
        (comb_opt (in_final_script_witness self) (in_final_script_witness other))
        (comb_map bkey (in_ripemd160_preimages self) (in_ripemd160_preimages other))
        (comb_map bkey (in_sha256_preimages self) (in_sha256_preimages other))
        (comb_map bkey (in_hash160_preimages self) (in_hash160_preimages other))
        (comb_map bkey (in_hash256_preimages self) (in_hash256_preimages other))
        (comb_opt (in_tap_key_sig self) (in_tap_key_sig other))
        (comb_map sk_xleaf (in_tap_script_sigs self) (in_tap_script_sigs other))
        (comb_map sk_controlblock (in_tap_scripts self) (in_tap_scripts other))
        (comb_map bkey (in_tap_key_origins self) (in_tap_key_origins other))
        (comb_opt (in_tap_internal_key self) (in_tap_internal_key other))
        (comb_opt (in_tap_merkle_root self) (in_tap_merkle_root other))
        (comb_map bkey (in_sp_ecdh_shares self) (in_sp_ecdh_shares other))
        (comb_map bkey (in_sp_dleq_proofs self) (in_sp_dleq_proofs other))
        (comb_map sk_propkey (in_proprietaries self) (in_proprietaries other))
        (comb_map sk_key (in_unknowns self) (in_unknowns other)).
Definition join_output (self other : output) : output :=
  Output (out_amount self) (out_script_pubkey self)
        (comb_opt (out_redeem_script self) (out_redeem_script other))
        (comb_opt (out_witness_script self) (out_witness_script other))
        (comb_map bkey (out_bip32_derivations self) (out_bip32_derivations other))
        (comb_opt (out_tap_internal_key self) (out_tap_internal_key other))
        (comb_opt (out_tap_tree self) (out_tap_tree other))
        (comb_map bkey (out_tap_key_origins self) (out_tap_key_origins other))
        (comb_opt (out_sp_v0_info self) (out_sp_v0_info other))
        (comb_opt (out_sp_v0_label self) (out_sp_v0_label other))
        (comb_map sk_propkey (out_proprietaries self) (out_proprietaries other))
        (comb_map sk_key (out_unknowns self) (out_unknowns other)).
Definition ikey (i : input) := (in_previous_txid i, in_spent_output_index i).
Definition okey (o : output) := (out_amount o, out_script_pubkey o).

Lemma utxo_eq i j : input_combine_utxo i j =
  comb_utxo (in_witness_utxo i) (in_witness_utxo j) (in_non_witness_utxo i) (in_non_witness_utxo j).
Proof. unfold input_combine_utxo. now destruct (in_witness_utxo i), (in_witness_utxo j). Qed.
Lemma join_input_ok i j c : input_combine i j = Ok c <-> ikey i = ikey j /\ c = join_input i j.
Proof.
  unfold input_combine, ikey, join_input. rewrite <- utxo_eq. split.
  - destruct (bytes_eqb _ _) eqn:E2; cbn [negb fail_if bind]; [|discriminate].
    destruct (_ =? _) eqn:E1; cbn [negb fail_if bind]; [|discriminate].
    intros H. apply Ok_inj in H. split; [|now subst c]. apply bytes_eqb_eq in E2. f_equal; auto. lia.
  - intros [E ->]. injection E as E1 E2. rewrite ?(proj2 (N.eqb_eq _ _) E1), ?(proj2 (N.eqb_eq _ _) E2), ?(proj2 (bytes_eqb_eq _ _) E1), ?(proj2 (bytes_eqb_eq _ _) E2). reflexivity.
Qed.
Lemma join_output_ok i j c : output_combine i j = Ok c <-> okey i = okey j /\ c = join_output i j.
Proof.
  unfold output_combine, okey. split.
  - destruct (_ =? _) eqn:E1; cbn [negb fail_if bind]; [|discriminate].
    destruct (bytes_eqb _ _) eqn:E2; cbn [negb fail_if bind]; [|discriminate].
    intros H. apply Ok_inj in H. split; [|now subst c]. apply bytes_eqb_eq in E2. f_equal; auto. lia.
  - intros [E ->]. injection E as E1 E2. rewrite ?(proj2 (N.eqb_eq _ _) E1), ?(proj2 (N.eqb_eq _ _) E2), ?(proj2 (bytes_eqb_eq _ _) E1), ?(proj2 (bytes_eqb_eq _ _) E2). reflexivity.
Qed.
Lemma join_output_assoc a b c : sorted_output a -> sorted_output b -> sorted_output c ->
  join_output (join_output a b) c = join_output a (join_output b c).
Proof.
  intros [] [] []. unfold join_output; cbn. f_equal; first [apply comb_opt_assoc|maps_assoc].
Qed.
Lemma input_ext_utxo (i j : input) :
  in_previous_txid i = in_previous_txid j ->
  in_spent_output_index i = in_spent_output_index j ->
  in_sequence i = in_sequence j ->
  in_min_time i = in_min_time j ->
  in_min_height i = in_min_height j ->
  in_witness_utxo i = in_witness_utxo j ->
  in_partial_sigs i = in_partial_sigs j ->
  in_sighash_type i = in_sighash_type j ->
  in_redeem_script i = in_redeem_script j ->
  in_witness_script i = in_witness_script j ->
  in_bip32_derivations i = in_bip32_derivations j ->
  in_final_script_sig i = in_final_script_sig j ->
  in_final_script_witness i = in_final_script_witness j ->
  in_ripemd160_preimages i = in_ripemd160_preimages j ->
  in_sha256_preimages i = in_sha256_preimages j ->
  in_hash160_preimages i = in_hash160_preimages j ->
  in_hash256_preimages i = in_hash256_preimages j ->
  in_tap_key_sig i = in_tap_key_sig j ->
  in_tap_script_sigs i = in_tap_script_sigs j ->
  in_tap_scripts i = in_tap_scripts j ->
  in_tap_key_origins i = in_tap_key_origins j ->
  in_tap_internal_key i = in_tap_internal_key j ->
  in_tap_merkle_root i = in_tap_merkle_root j ->
  in_sp_ecdh_shares i = in_sp_ecdh_shares j ->
  in_sp_dleq_proofs i = in_sp_dleq_proofs j ->
  in_proprietaries i = in_proprietaries j ->
  in_unknowns i = in_unknowns j ->
  i = set_in_non_witness_utxo (in_non_witness_utxo i) j.
Proof. destruct i, j; cbn; intros; subst; reflexivity. Qed.
Lemma join_input_assoc a b c : sorted_input a -> sorted_input b -> sorted_input c ->
  join_input a (join_input b c) =
  set_in_non_witness_utxo (in_non_witness_utxo (join_input a (join_input b c))) (join_input (join_input a b) c).
Proof.
  intros [] [] []. apply input_ext_utxo; unfold join_input; cbn -[comb_map comb_utxo comb_opt]; symmetry;
    first [apply comb_opt_assoc|maps_assoc|apply comb_utxo_witness|reflexivity].
Qed.
Lemma join_input_drop a b c : sorted_input a -> sorted_input b -> sorted_input c ->
  drop_utxo (join_input (join_input a b) c) = drop_utxo (join_input a (join_input b c)).
Proof. intros. rewrite (join_input_assoc a b c) by assumption. reflexivity. Qed.
Lemma set_nwu_same i : set_in_non_witness_utxo (in_non_witness_utxo i) i = i.
Proof. now destruct i. Qed.
Lemma join_input_regroup a b c : sorted_input a -> sorted_input b -> sorted_input c ->
  join_input (join_input a b) c = join_input a (join_input b c) <-> regroupable_inputs a b c.
Proof.
  intros Sa Sb Sc. unfold regroupable_inputs. rewrite <- comb_utxo_regroup. split.
  - intros H. apply (f_equal in_non_witness_utxo) in H. exact H.
  - intros H. rewrite (join_input_assoc a b c) by assumption.
    rewrite <- (set_nwu_same (join_input (join_input a b) c)) at 1. f_equal. exact H.
Qed.

Lemma global_combine_iff a b d : global_combine a b = Ok d <->
  g_version a = g_version b /\ g_tx_version a = g_tx_version b /\
  global_merge_xpubs (g_xpubs b) (g_xpubs a) = Ok (g_xpubs d) /\
  d = Global (g_version a) (g_tx_version a) (g_fallback_lock_time a)
        (g_tx_modifiable_flags a) (g_input_count a) (g_output_count a) (g_xpubs d)
        (comb_map bkey (g_sp_ecdh_shares a) (g_sp_ecdh_shares b))
        (comb_map bkey (g_sp_dleq_proofs a) (g_sp_dleq_proofs b))
        (comb_map sk_propkey (g_proprietaries a) (g_proprietaries b))
        (comb_map sk_key (g_unknowns a) (g_unknowns b)).
Proof.
  unfold global_combine. split.
  - destruct (g_version a =? g_version b) eqn:E1; cbn [negb fail_if bind]; [|discriminate].
    destruct (g_tx_version a =? g_tx_version b) eqn:E2; cbn [negb fail_if bind]; [|discriminate].
    intros H. apply bind_ok in H as (xs & Hx & H). apply Ok_inj in H. split; [lia|]. split; [lia|]. subst d. auto.
  - intros (E1 & E2 & E3 & E4). rewrite E1, E2, !N.eqb_refl. cbn [negb fail_if bind]. rewrite E3. cbn [bind].
    f_equal. rewrite E4, E1, E2. reflexivity.
Qed.
Lemma global_combine_assoc a b c d : sorted_global a -> sorted_global b -> sorted_global c ->
  (left_first global_combine a b c = Ok d <-> right_first global_combine a b c = Ok d).
Proof.
  intros [Sa1 ? ? ? ?] [Sb1 ? ? ? ?] [Sc1 ? ? ? ?]. unfold left_first, right_first.
  pose proof (merge_assoc (g_xpubs a) (g_xpubs b) (g_xpubs c) (g_xpubs d) Sa1 Sb1 Sc1) as M. split; intros H.
  - apply bind_ok in H as (ab & H1 & H2). apply global_combine_iff in H1 as (E1 & E2 & E3 & E4), H2 as (F1 & F2 & F3 & F4).
    rewrite E3 in M. cbn [bind] in M. destruct M as [M _]. specialize (M F3). apply bind_ok in M as (xs & M1 & M2).
    rewrite E4 in F1, F2, F4. cbn in F1, F2, F4.
    set (bc := Global (g_version b) (g_tx_version b) (g_fallback_lock_time b)
        (g_tx_modifiable_flags b) (g_input_count b) (g_output_count b) xs
        (comb_map bkey (g_sp_ecdh_shares b) (g_sp_ecdh_shares c))
        (comb_map bkey (g_sp_dleq_proofs b) (g_sp_dleq_proofs c))
        (comb_map sk_propkey (g_proprietaries b) (g_proprietaries c))
        (comb_map sk_key (g_unknowns b) (g_unknowns c))).
    assert (B : global_combine b c = Ok bc) by (apply global_combine_iff; cbn; repeat (split; [congruence|]); reflexivity).
    rewrite B. cbn [bind]. apply global_combine_iff. cbn. repeat (split; [assumption|]).
    rewrite F4 at 1. f_equal; maps_assoc.
  - apply bind_ok in H as (bc & H1 & H2). apply global_combine_iff in H1 as (E1 & E2 & E3 & E4), H2 as (F1 & F2 & F3 & F4).
    rewrite E3 in M. cbn [bind] in M. destruct M as [_ M]. specialize (M F3). apply bind_ok in M as (xs & M1 & M2).
    rewrite E4 in F1, F2, F4. cbn in F1, F2, F4.
    set (ab := Global (g_version a) (g_tx_version a) (g_fallback_lock_time a)
        (g_tx_modifiable_flags a) (g_input_count a) (g_output_count a) xs
        (comb_map bkey (g_sp_ecdh_shares a) (g_sp_ecdh_shares b))
        (comb_map bkey (g_sp_dleq_proofs a) (g_sp_dleq_proofs b))
        (comb_map sk_propkey (g_proprietaries a) (g_proprietaries b))
        (comb_map sk_key (g_unknowns a) (g_unknowns b))).
    assert (B : global_combine a b = Ok ab) by (apply global_combine_iff; cbn; repeat (split; [congruence|]); reflexivity).
    rewrite B. cbn [bind]. apply global_combine_iff. cbn. split; [congruence|]. split; [congruence|]. split; [assumption|].
    rewrite F4 at 1. f_equal; symmetry; maps_assoc.
Qed.

(** Both groupings on the level of the PSBT. *)
Lemma psbt_left a b c d : left_first psbt_combine a b c = Ok d <->
  left_first global_combine (p_global a) (p_global b) (p_global c) = Ok (p_global d) /\
  left_first (combine_zip input_combine) (p_inputs a) (p_inputs b) (p_inputs c) = Ok (p_inputs d) /\
  left_first (combine_zip output_combine) (p_outputs a) (p_outputs b) (p_outputs c) = Ok (p_outputs d).
Proof.
  unfold left_first. split.
  - intros H. apply bind_ok in H as (ab & H1 & H2). apply psbt_combine_ok in H1 as (-> & -> & ->). now apply psbt_combine_ok in H2.
  - intros (H1 & H2 & H3). apply bind_ok in H1 as (g & G1 & G2), H2 as (i & I1 & I2), H3 as (o & O1 & O2).
    rewrite (proj2 (psbt_combine_ok a b (Psbt g i o)) (conj G1 (conj I1 O1))). cbn [bind]. now apply psbt_combine_ok.
Qed.
Lemma psbt_right a b c d : right_first psbt_combine a b c = Ok d <->
  right_first global_combine (p_global a) (p_global b) (p_global c) = Ok (p_global d) /\
  right_first (combine_zip input_combine) (p_inputs a) (p_inputs b) (p_inputs c) = Ok (p_inputs d) /\
  right_first (combine_zip output_combine) (p_outputs a) (p_outputs b) (p_outputs c) = Ok (p_outputs d).
Proof.
  unfold right_first. split.
  - intros H. apply bind_ok in H as (ab & H1 & H2). apply psbt_combine_ok in H1 as (-> & -> & ->). now apply psbt_combine_ok in H2.
  - intros (H1 & H2 & H3). apply bind_ok in H1 as (g & G1 & G2), H2 as (i & I1 & I2), H3 as (o & O1 & O2).
    rewrite (proj2 (psbt_combine_ok b c (Psbt g i o)) (conj G1 (conj I1 O1))). cbn [bind]. now apply psbt_combine_ok.
Qed.

Section Three.
Variables a b c : psbt.
Hypothesis (Sa : sorted_psbt a) (Sb : sorted_psbt b) (Sc : sorted_psbt c) (Lab : same_counts a b) (Lbc : same_counts b c).

Lemma regroup_right_ok d : left_first psbt_combine a b c = Ok d ->
  exists e, right_first psbt_combine a b c = Ok e /\ without_utxos d = without_utxos e.
Proof.
  destruct Sa as (Ga & Ia & Oa), Sb as (Gb & Ib & Ob), Sc as (Gc & Ic & Oc), Lab as [L1 L2], Lbc as [M1 M2].
  intros H. apply psbt_left in H as (HG & HI & HO).
  apply (global_combine_assoc _ _ _ _ Ga Gb Gc) in HG.
  apply (zip_left _ _ _ join_input_ok) in HI as (KI & EI); auto.
  apply (zip_left _ _ _ join_output_ok) in HO as (KO & EO); auto.
  eexists (Psbt _ _ _). split.
  - apply psbt_right. cbn. split; [exact HG|]. split.
    + apply (zip_right _ _ _ join_input_ok); auto.
    + apply (zip_right _ _ _ join_output_ok); auto.
  - unfold without_utxos. cbn. rewrite EI, EO. f_equal.
    + apply (zip_regroup join_input drop_utxo sorted_input (fun _ _ _ => True)); auto.
      * intros; split; auto using join_input_drop.
      * intros x ? ? ? _ _ _; exact Logic.I.
    + apply (zip_regroup_id join_output sorted_output (fun _ _ _ => True)); auto.
      * intros; split; auto using join_output_assoc.
      * intros x ? ? ? _ _ _; exact Logic.I.
Qed.
Lemma regroup_left_ok e : right_first psbt_combine a b c = Ok e -> exists d, left_first psbt_combine a b c = Ok d.
Proof.
  destruct Sa as (Ga & Ia & Oa), Sb as (Gb & Ib & Ob), Sc as (Gc & Ic & Oc), Lab as [L1 L2], Lbc as [M1 M2].
  intros H. apply psbt_right in H as (HG & HI & HO).
  apply (global_combine_assoc _ _ _ _ Ga Gb Gc) in HG.
  apply (zip_right _ _ _ join_input_ok) in HI as (KI & EI); auto.
  apply (zip_right _ _ _ join_output_ok) in HO as (KO & EO); auto.
  eexists (Psbt _ _ _). apply psbt_left. cbn. split; [exact HG|]. split.
  - apply (zip_left _ _ _ join_input_ok); auto.
  - apply (zip_left _ _ _ join_output_ok); auto.
Qed.
Lemma regroup_eq d e : left_first psbt_combine a b c = Ok d -> right_first psbt_combine a b c = Ok e ->
  (d = e <-> nth3 regroupable_inputs (p_inputs a) (p_inputs b) (p_inputs c)).
Proof.
  intros Hd He. destruct (regroup_right_ok d Hd) as (e' & He' & Hw). assert (e' = e) by congruence. subst e'.
  destruct Sa as (Ga & Ia & Oa), Sb as (Gb & Ib & Ob), Sc as (Gc & Ic & Oc), Lab as [L1 L2], Lbc as [M1 M2].
  apply psbt_left in Hd as (_ & HI & _). apply psbt_right in He as (_ & HI' & _).
  apply (zip_left _ _ _ join_input_ok) in HI as (_ & EI); auto.
  apply (zip_right _ _ _ join_input_ok) in HI' as (_ & EI'); auto.
  rewrite <- (zip_regroup_id join_input sorted_input _ join_input_regroup) by assumption. rewrite <- EI, <- EI'.
  split; [intros ->; auto|]. intros Q. destruct d, e. unfold without_utxos in Hw. cbn in *. injection Hw as -> _ ->. now rewrite Q.
Qed.
End Three.
End V2.

(** ** v0 *)
Section V0.
Context `{X : Ext}.

Lemma output0_assoc a b c : sorted_output0 a -> sorted_output0 b -> sorted_output0 c ->
  output0_combine (output0_combine a b) c = output0_combine a (output0_combine b c).
Proof.
  intros [] [] []. unfold output0_combine; cbn. f_equal; first [apply comb_opt_assoc|maps_assoc].
Qed.
Lemma utxo0_eq i j : input0_combine_utxo i j =
  comb_utxo (i0_witness_utxo i) (i0_witness_utxo j) (i0_non_witness_utxo i) (i0_non_witness_utxo j).
Proof. unfold input0_combine_utxo. now destruct (i0_witness_utxo i), (i0_witness_utxo j). Qed.
Lemma input0_ext_utxo (i j : input0) :
  i0_witness_utxo i = i0_witness_utxo j ->
  i0_partial_sigs i = i0_partial_sigs j ->
  i0_sighash_type i = i0_sighash_type j ->
  i0_redeem_script i = i0_redeem_script j ->
  i0_witness_script i = i0_witness_script j ->
  i0_bip32_derivation i = i0_bip32_derivation j ->
  i0_final_script_sig i = i0_final_script_sig j ->
  i0_final_script_witness i = i0_final_script_witness j ->
  i0_ripemd160_preimages i = i0_ripemd160_preimages j ->
  i0_sha256_preimages i = i0_sha256_preimages j ->
  i0_hash160_preimages i = i0_hash160_preimages j ->
  i0_hash256_preimages i = i0_hash256_preimages j ->
  i0_tap_key_sig i = i0_tap_key_sig j ->
  i0_tap_script_sigs i = i0_tap_script_sigs j ->
  i0_tap_scripts i = i0_tap_scripts j ->
  i0_tap_key_origins i = i0_tap_key_origins j ->
  i0_tap_internal_key i = i0_tap_internal_key j ->
  i0_tap_merkle_root i = i0_tap_merkle_root j ->
  i0_proprietary i = i0_proprietary j ->
  i0_unknown i = i0_unknown j ->
  i = set_i0_non_witness_utxo (i0_non_witness_utxo i) j.
Proof. destruct i, j; cbn; intros; subst; reflexivity. Qed.
Lemma input0_assoc a b c : sorted_input0 a -> sorted_input0 b -> sorted_input0 c ->
  input0_combine a (input0_combine b c) =
  set_i0_non_witness_utxo (i0_non_witness_utxo (input0_combine a (input0_combine b c))) (input0_combine (input0_combine a b) c).
Proof.
  intros [] [] []. apply input0_ext_utxo; unfold input0_combine; cbn -[comb_map comb_utxo comb_opt input0_combine_utxo]; symmetry;
    first [apply comb_opt_assoc|maps_assoc|now rewrite !utxo0_eq; cbn -[comb_utxo]; rewrite ?utxo0_eq; apply comb_utxo_witness|reflexivity].
Qed.
Lemma input0_drop a b c : sorted_input0 a -> sorted_input0 b -> sorted_input0 c ->
  drop_utxo0 (input0_combine (input0_combine a b) c) = drop_utxo0 (input0_combine a (input0_combine b c)).
Proof. intros. rewrite (input0_assoc a b c) by assumption. reflexivity. Qed.
Lemma set_nwu0_same i : set_i0_non_witness_utxo (i0_non_witness_utxo i) i = i.
Proof. now destruct i. Qed.
Lemma nwu0_eq i j : i0_non_witness_utxo (input0_combine i j) =
  fst (comb_utxo (i0_witness_utxo i) (i0_witness_utxo j) (i0_non_witness_utxo i) (i0_non_witness_utxo j)).
Proof. rewrite <- utxo0_eq. reflexivity. Qed.
Lemma wu0_eq i j : i0_witness_utxo (input0_combine i j) =
  snd (comb_utxo (i0_witness_utxo i) (i0_witness_utxo j) (i0_non_witness_utxo i) (i0_non_witness_utxo j)).
Proof. rewrite <- utxo0_eq. reflexivity. Qed.
Lemma input0_regroup a b c : sorted_input0 a -> sorted_input0 b -> sorted_input0 c ->
  input0_combine (input0_combine a b) c = input0_combine a (input0_combine b c) <-> regroupable_inputs0 a b c.
Proof.
  intros Sa Sb Sc. unfold regroupable_inputs0. rewrite <- comb_utxo_regroup. rewrite <- !nwu0_eq, <- !wu0_eq, <- !nwu0_eq. split.
  - intros H. apply (f_equal i0_non_witness_utxo) in H. exact H.
  - intros H. rewrite (input0_assoc a b c) by assumption.
    rewrite <- (set_nwu0_same (input0_combine (input0_combine a b) c)) at 1. f_equal. exact H.
Qed.

Lemma psbt0_left a b c d : left_first psbt0_combine a b c = Ok d <->
  p0_unsigned_tx a = p0_unsigned_tx b /\ p0_unsigned_tx b = p0_unsigned_tx c /\
  exists xs ys, global_merge_xpubs (p0_xpub b) (p0_xpub a) = Ok ys /\ global_merge_xpubs (p0_xpub c) ys = Ok xs /\
    d = combined0 (combined0 a b ys) c xs.
Proof.
  unfold left_first. split.
  - intros H. apply bind_ok in H as (ab & H1 & H2). apply psbt0_combine_ok in H1 as (E1 & ys & Y & ->).
    apply psbt0_combine_ok in H2 as (E2 & xs & Hx & ->). cbn in E2, Hx. split; auto. split; [congruence|]. exists xs, ys. auto.
  - intros (E1 & E2 & xs & ys & Y & Hx & ->).
    rewrite (proj2 (psbt0_combine_ok a b _) (conj E1 (ex_intro _ ys (conj Y eq_refl)))). cbn [bind].
    apply psbt0_combine_ok. cbn. split; [congruence|]. exists xs. auto.
Qed.
Lemma psbt0_right a b c d : right_first psbt0_combine a b c = Ok d <->
  p0_unsigned_tx a = p0_unsigned_tx b /\ p0_unsigned_tx b = p0_unsigned_tx c /\
  exists xs ys, global_merge_xpubs (p0_xpub c) (p0_xpub b) = Ok ys /\ global_merge_xpubs ys (p0_xpub a) = Ok xs /\
    d = combined0 a (combined0 b c ys) xs.
Proof.
  unfold right_first. split.
  - intros H. apply bind_ok in H as (ab & H1 & H2). apply psbt0_combine_ok in H1 as (E1 & ys & Y & ->).
    apply psbt0_combine_ok in H2 as (E2 & xs & Hx & ->). cbn in E2, Hx. split; auto. split; [congruence|]. exists xs, ys. auto.
  - intros (E1 & E2 & xs & ys & Y & Hx & ->).
    rewrite (proj2 (psbt0_combine_ok b c _) (conj E2 (ex_intro _ ys (conj Y eq_refl)))). cbn [bind].
    apply psbt0_combine_ok. cbn. split; [congruence|]. exists xs. auto.
Qed.

Section Three.
Variables a b c : psbt0.
Hypothesis (Sa : sorted_psbt0 a) (Sb : sorted_psbt0 b) (Sc : sorted_psbt0 c) (Lab : same_counts0 a b) (Lbc : same_counts0 b c).

Lemma regroup0_xpubs xs : (exists ys, global_merge_xpubs (p0_xpub b) (p0_xpub a) = Ok ys /\ global_merge_xpubs (p0_xpub c) ys = Ok xs) <->
  (exists ys, global_merge_xpubs (p0_xpub c) (p0_xpub b) = Ok ys /\ global_merge_xpubs ys (p0_xpub a) = Ok xs).
Proof.
  pose proof (merge_assoc (p0_xpub a) (p0_xpub b) (p0_xpub c) xs (sp0_xpub _ Sa) (sp0_xpub _ Sb) (sp0_xpub _ Sc)) as M. split.
  - intros (ys & H1 & H2). rewrite H1 in M. cbn [bind] in M. apply M in H2. apply bind_ok in H2 as (zs & ? & ?). eauto.
  - intros (ys & H1 & H2). rewrite H1 in M. cbn [bind] in M. apply M in H2. apply bind_ok in H2 as (zs & ? & ?). eauto.
Qed.
Lemma combined0_regroup xs ys zs :
  without_utxos0 (combined0 (combined0 a b ys) c xs) = without_utxos0 (combined0 a (combined0 b c zs) xs) /\
  (combined0 (combined0 a b ys) c xs = combined0 a (combined0 b c zs) xs <->
   nth3 regroupable_inputs0 (p0_inputs a) (p0_inputs b) (p0_inputs c)).
Proof.
  destruct Sa as [Xa Pa Ua Ia Oa], Sb as [Xb Pb Ub Ib Ob], Sc as [Xc Pc Uc Ic Oc], Lab as [L1 L2], Lbc as [M1 M2].
  assert (H1 : N.max (N.max (p0_version a) (p0_version b)) (p0_version c) = N.max (p0_version a) (N.max (p0_version b) (p0_version c))) by lia.
  assert (H2 : comb_map sk_propkey (comb_map sk_propkey (p0_proprietary a) (p0_proprietary b)) (p0_proprietary c) =
    comb_map sk_propkey (p0_proprietary a) (comb_map sk_propkey (p0_proprietary b) (p0_proprietary c))) by maps_assoc.
  assert (H3 : comb_map sk_key (comb_map sk_key (p0_unknown a) (p0_unknown b)) (p0_unknown c) =
    comb_map sk_key (p0_unknown a) (comb_map sk_key (p0_unknown b) (p0_unknown c))) by maps_assoc.
  pose proof (proj2 (zip_regroup_id output0_combine sorted_output0 (fun _ _ _ => True)
    (fun x y z Hx Hy Hz => conj (fun _ => Logic.I) (fun _ => output0_assoc x y z Hx Hy Hz)) _ _ _ L2 M2 Oa Ob Oc)
    (fun _ _ _ _ _ _ _ => Logic.I)) as H4.
  pose proof (proj2 (zip_regroup input0_combine drop_utxo0 sorted_input0 (fun _ _ _ => True)
    (fun x y z Hx Hy Hz => conj (fun _ => Logic.I) (fun _ => input0_drop x y z Hx Hy Hz)) _ _ _ L1 M1 Ia Ib Ic)
    (fun _ _ _ _ _ _ _ => Logic.I)) as H5.
  pose proof (zip_regroup_id input0_combine sorted_input0 _ input0_regroup _ _ _ L1 M1 Ia Ib Ic) as H6.
  unfold without_utxos0, set_p0_inputs, combined0.
  cbn [p0_unsigned_tx p0_version p0_xpub p0_proprietary p0_unknown p0_inputs p0_outputs].
  rewrite H1, H2, H3, H4. split; [now rewrite H5|]. rewrite <- H6. split.
  - intros Q. injection Q. auto.
  - intros ->. reflexivity.
Qed.
Lemma regroup0_right_ok d : left_first psbt0_combine a b c = Ok d ->
  exists e, right_first psbt0_combine a b c = Ok e /\ without_utxos0 d = without_utxos0 e.
Proof.
  intros H. apply psbt0_left in H as (E1 & E2 & xs & ys & H1 & H2 & ->).
  destruct (proj1 (regroup0_xpubs xs) (ex_intro _ ys (conj H1 H2))) as (zs & H3 & H4).
  exists (combined0 a (combined0 b c zs) xs). split; [apply psbt0_right; eauto 9|]. apply combined0_regroup.
Qed.
Lemma regroup0_left_ok e : right_first psbt0_combine a b c = Ok e -> exists d, left_first psbt0_combine a b c = Ok d.
Proof.
  intros H. apply psbt0_right in H as (E1 & E2 & xs & ys & H1 & H2 & ->).
  destruct (proj2 (regroup0_xpubs xs) (ex_intro _ ys (conj H1 H2))) as (zs & H3 & H4).
  exists (combined0 (combined0 a b zs) c xs). apply psbt0_left; eauto 9.
Qed.
Lemma regroup0_eq d e : left_first psbt0_combine a b c = Ok d -> right_first psbt0_combine a b c = Ok e ->
  (d = e <-> nth3 regroupable_inputs0 (p0_inputs a) (p0_inputs b) (p0_inputs c)).
Proof.
  intros H G. apply psbt0_left in H as (E1 & E2 & xs & ys & H1 & H2 & ->).
  apply psbt0_right in G as (_ & _ & xs' & zs & H3 & H4 & ->).
  destruct (proj1 (regroup0_xpubs xs) (ex_intro _ ys (conj H1 H2))) as (zs' & H3' & H4').
  assert (zs' = zs) by congruence. subst zs'. assert (xs' = xs) by congruence. subst xs'. apply combined0_regroup.
Qed.
End Three.
End V0.
