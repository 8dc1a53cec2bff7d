(** Several signers and combiners on one v2 PSBT. *)
From Verif Require Import Base OMap Consensus Ext Serialize SerializeFacts RawFacts MapCodec V2Global V2Input V2Output V2Psbt V2Roles SpecCombine V2CombineFacts
  RegroupFacts V2Sign SpecSign V2SignFacts V2SignMergeFacts SpecParallel V0SignFacts V0ParallelFacts.
Local Open Scope N_scope.

Section Parallel.
Context `{X : Ext} `{C : Cfg} `{S : SignExt}.

Definition made_sig (k : provider) (t : tx) (p : psbt) (n : N) (pk : pubkey) : option esig :=
  match outcome_of k t p n with Signed m ty sks => m_get sk_pubkey pk (add_sigs m ty [] sks) | _ => None end.
Definition flags2 (p : psbt) (t : tx) (q : psbt) : Prop :=
  exists k, flags_after (signed_types k t p) (g_tx_modifiable_flags (p_global p)) (g_tx_modifiable_flags (p_global q)).
Record state2 (p : psbt) (t : tx) (ks : list provider) (q : psbt) : Prop := {
  s2_same : same_but_signed p q;
  s2_sorted : Forall (fun i => m_sorted sk_pubkey (in_partial_sigs i)) (p_inputs q);
  s2_sigs : forall n i j pk, nth_error (p_inputs p) (N.to_nat n) = Some i -> nth_error (p_inputs q) (N.to_nat n) = Some j ->
    m_get sk_pubkey pk (in_partial_sigs j) = over (first_of (fun k => made_sig k t p n pk) ks) (m_get sk_pubkey pk (in_partial_sigs i))
}.
Lemma sign_outcome_sigs k t p n i pk :
  m_get sk_pubkey pk (in_partial_sigs (sign_outcome k t p n i)) = over (made_sig k t p n pk) (m_get sk_pubkey pk (in_partial_sigs i)).
Proof.
  unfold sign_outcome, made_sig. destruct (outcome_of k t p n); try reflexivity. unfold sign_input.
  replace (in_partial_sigs (set_in_partial_sigs _ _)) with (add_sigs m ty (in_partial_sigs i) sks) by (now destruct i). apply add_sigs_over.
Qed.
Lemma sign_outcome_sorted k t p n i : m_sorted sk_pubkey (in_partial_sigs i) -> m_sorted sk_pubkey (in_partial_sigs (sign_outcome k t p n i)).
Proof.
  intros H. unfold sign_outcome. destruct (outcome_of k t p n); auto. unfold sign_input.
  replace (in_partial_sigs (set_in_partial_sigs _ _)) with (add_sigs m ty (in_partial_sigs i) sks) by (now destruct i). now apply add_sigs_sorted.
Qed.
Lemma state2_start p t : sorted_psbt p -> state2 p t [] p.
Proof.
  intros (_ & H & _). constructor.
  - apply sbs_refl.
  - eapply Forall_impl; [|exact H]. intros i Hi. apply Hi.
  - intros n i j pk Hi Hj. assert (i = j) by congruence. subst j. reflexivity.
Qed.
Lemma sign_inv k p q r used t : unsigned_tx p = Ok t -> same_but_signed p q -> signer_sign k q = Ok (r, used) -> r = signed_psbt k t q.
Proof.
  intros Ht H Hs. rewrite (sign_again k p q t Ht H) in Hs. destruct (existsb _ _); [discriminate|]. destruct (flat_map (error_of k t p) _); [|discriminate]. inj Hs. now injection Hs as <- _.
Qed.
Lemma state2_sign p t ks q k r used : unsigned_tx p = Ok t -> state2 p t ks q -> signer_sign k q = Ok (r, used) -> state2 p t (k :: ks) r.
Proof.
  intros Ht [H1 H2 H3] H. apply (sign_inv k p q r used t Ht H1) in H. subst r. constructor.
  - exact (sbs_trans _ _ _ H1 (signed_psbt_same k t q)).
  - apply F_nth. intros n j' Hj. rewrite (sign_again_nth k t p q n H1) in Hj. destruct (nth_error (p_inputs q) (N.to_nat n)) as [j|] eqn:Ej; [|discriminate].
    cbn [option_map] in Hj. injection Hj as <-. apply sign_outcome_sorted. exact (proj1 (Forall_forall _ _) H2 _ (nth_error_In _ _ Ej)).
  - intros n i j' pk Hi Hj. rewrite (sign_again_nth k t p q n H1) in Hj. destruct (nth_error (p_inputs q) (N.to_nat n)) as [j|] eqn:Ej; [|discriminate].
    cbn [option_map] in Hj. injection Hj as <-. rewrite sign_outcome_sigs, (H3 n i j pk Hi Ej). cbn [first_of]. unfold over. now destruct (made_sig k t p n pk).
Qed.
Lemma flags2_first p t k q used : unsigned_tx p = Ok t -> signer_sign k p = Ok (q, used) -> flags2 p t q.
Proof. intros Ht H. apply (sign_inv k p p q used t Ht (sbs_refl p)) in H. subst q. exists k. now apply signed_psbt_flags. Qed.
Lemma flags_idem k k' t p f g : flags_after (signed_types k t p) f g -> flags_after (signed_types k' t p) g g.
Proof. intros H. eapply fa_ext; [|exact (fa_idem _ _ _ H)]. apply signed_types_other. Qed.
Lemma flags2_sign p t q k r used : unsigned_tx p = Ok t -> same_but_signed p q -> flags2 p t q -> signer_sign k q = Ok (r, used) -> flags2 p t r.
Proof.
  intros Ht H1 [k0 H3] H. apply (sign_inv k p q r used t Ht H1) in H. subst r. exists k.
  pose proof (sign_again_flags k t p q Ht H1) as F. rewrite (flags_after_fun _ _ _ _ F (flags_idem k0 k t p _ _ H3)).
  eapply fa_ext; [|exact H3]. apply signed_types_other.
Qed.
Lemma flags2_fun p t q q' : flags2 p t q -> flags2 p t q' -> g_tx_modifiable_flags (p_global q) = g_tx_modifiable_flags (p_global q').
Proof. intros [k H] [k' H']. eapply flags_after_fun; [exact H|]. eapply fa_ext; [|exact H']. apply signed_types_other. Qed.
Lemma outcome_keys k t p n m ty sks : outcome_of k t p n = Signed m ty sks ->
  exists i, nth_error (p_inputs p) (N.to_nat n) = Some i /\ keys_for k (in_bip32_derivations i) sks.
Proof.
  unfold outcome_of. destruct (psbt_signing_algorithm p n) as [[]| |]; try discriminate.
  destruct (nth_error (p_inputs p) (N.to_nat n)) as [i|]; try discriminate.
  destruct (psbt_sighash_ecdsa p n t) as [[m' ty']| |]; try discriminate; [|destruct (is_empty _); discriminate].
  intros [= _ _ <-]. exists i. split; [reflexivity|]. now apply found_iff.
Qed.
Lemma agree2 p t ks n pk : team2 p ks -> agreed (fun k => made_sig k t p n pk) ks.
Proof.
  intros H k k' a b Hk Hk' Ea Eb. unfold made_sig in *. destruct (outcome_of k t p n) as [| | |m ty sks] eqn:Eo; try discriminate.
  destruct (outcome_other k k' _ _ _ _ _ _ Eo) as [sks' Eo']. rewrite Eo' in Eb.
  destruct (outcome_keys _ _ _ _ _ _ _ Eo) as (i & Hi & K). destruct (outcome_keys _ _ _ _ _ _ _ Eo') as (i' & Hi' & K'). assert (i' = i) by congruence. subst i'.
  apply add_sigs_get in Ea as [Ea|[_ Ea]]; [|discriminate]. apply add_sigs_get in Eb as [Eb|[_ Eb]]; [|discriminate].
  destruct Ea as (l1 & sk & l2 & E1 & P1 & _ & ->), Eb as (l1' & sk' & l2' & E2 & P2 & _ & ->). do 2 f_equal.
  apply (t2_agree _ _ H k k' i sks sks' sk sk' Hk Hk' (nth_error_In _ _ Hi) K K'); [| |congruence].
  - rewrite E1. apply in_or_app. right. now left.
  - rewrite E2. apply in_or_app. right. now left.
Qed.
Lemma fresh2 p t ks k n i pk g o : team2 p ks -> In k ks -> unsigned_tx p = Ok t -> nth_error (p_inputs p) (N.to_nat n) = Some i ->
  made_sig k t p n pk = Some g -> m_get sk_pubkey pk (in_partial_sigs i) = Some o -> o = g.
Proof.
  intros H Hk Ht Hi Hm Ho. unfold made_sig in Hm. destruct (outcome_of k t p n) as [| | |m ty sks] eqn:Eo; try discriminate.
  assert (Hn : n < blen (tx_input t)).
  { rewrite (unsigned_inputs _ _ Ht). assert (Hx : nth_error (p_inputs p) (N.to_nat n) <> None) by congruence. apply nth_error_Some in Hx. unfold blen. lia. }
  destruct (outcome_ty k t p n m ty sks Hn Eo) as (j & Hj & _ & Hs & _ & K). assert (j = i) by congruence. subst j.
  apply add_sigs_get in Hm as [Hm|[_ Hm]]; [|discriminate]. apply (signature_fun sks m ty pk); [|exact Hm].
  exact (t2_fresh _ _ H k t n i m ty sks pk o Hk Ht Hi Hs K (signature_in _ _ _ _ _ Hm) Ho).
Qed.

Lemma sbs_combine i a b : sorted_input i -> same_but_sigs i a -> same_but_sigs i b ->
  input_combine a b = Ok (set_in_partial_sigs (comb_map sk_pubkey (in_partial_sigs a) (in_partial_sigs b)) i).
Proof. intros H Ha Hb. unfold same_but_sigs in *. rewrite Ha, Hb at 1. now apply combine_sigs. Qed.
Lemma F2_at {A B} (R : A -> B -> Prop) l l' : Forall2 R l l' -> forall n a, nth_error l n = Some a -> exists b, nth_error l' n = Some b /\ R a b.
Proof. induction 1 as [|x y l l' Hxy _ IH]; intros [|n] a Ha; cbn in *; try discriminate; [injection Ha as <-; eauto|now apply IH]. Qed.
Lemma state2_combine p t ks q ks' q' : unsigned_tx p = Ok t -> sorted_psbt p -> team2 p (ks ++ ks') ->
  state2 p t ks q -> state2 p t ks' q' -> exists r, psbt_combine q q' = Ok r /\ p_global r = p_global q /\ state2 p t (ks ++ ks') r.
Proof.
  intros Ht Hsp Hteam [S1 S2 S4] [R1 R2 R4]. pose proof Hsp as (Hg & Hi & Ho).
  set (comb := fun x : input * (input * input) => set_in_partial_sigs (comb_map sk_pubkey (in_partial_sigs (fst (snd x))) (in_partial_sigs (snd (snd x)))) (fst x)).
  set (l := map comb (combine (p_inputs p) (combine (p_inputs q) (p_inputs q')))).
  pose proof (F2_len _ _ _ (sb_inputs _ _ S1)) as L1. pose proof (F2_len _ _ _ (sb_inputs _ _ R1)) as L2.
  assert (Hlen : length l = length (p_inputs p)) by (unfold l; rewrite map_length, !combine_length; lia).
  assert (Hl : forall n i, nth_error (p_inputs p) n = Some i -> exists j j', nth_error (p_inputs q) n = Some j /\ nth_error (p_inputs q') n = Some j'
     /\ same_but_sigs i j /\ same_but_sigs i j' /\ nth_error l n = Some (comb (i, (j, j')))).
  { intros n i Hn. destruct (F2_at _ _ _ (sb_inputs _ _ S1) n i Hn) as (j & Hj & B1). destruct (F2_at _ _ _ (sb_inputs _ _ R1) n i Hn) as (j' & Hj' & B2).
    exists j, j'. split; [exact Hj|]. split; [exact Hj'|]. split; [exact B1|]. split; [exact B2|]. unfold l. rewrite nth_error_map.
    assert (G : forall A B (a : list A) (b : list B) m x y, nth_error a m = Some x -> nth_error b m = Some y -> nth_error (combine a b) m = Some (x, y)).
    { intros A B. induction a as [|x0 a IH]; intros [|y0 b] [|m] x y Hx Hy; cbn in *; try discriminate; [congruence|now apply IH]. }
    now rewrite (G _ _ _ _ n i (j, j') Hn (G _ _ _ _ n j j' Hj Hj')). }
  exists (Psbt (p_global q) l (p_outputs q)).
  assert (Hsame : same_but_signed p (Psbt (p_global q) l (p_outputs q))).
  { constructor; cbn [p_global p_inputs p_outputs].
    - exact (sb_outputs _ _ S1).
    - apply F2_of_nth; [now symmetry|]. intros n i c Hn Hc. destruct (Hl n i Hn) as (j & j' & _ & _ & _ & _ & E). rewrite E in Hc. injection Hc as <-.
      unfold comb, same_but_sigs. cbn [fst snd]. now destruct i.
    - exact (sb_global _ _ S1). }
  split.
  - apply psbt_combine_ok. cbn [p_global p_inputs p_outputs]. split; [|split].
    + rewrite (sb_global _ _ R1), (sb_global _ _ S1).
      change (global_combine (set_g_tx_modifiable_flags (g_tx_modifiable_flags (p_global q)) (p_global p)) (set_g_tx_modifiable_flags (g_tx_modifiable_flags (p_global q)) (p_global p))
        = Ok (set_g_tx_modifiable_flags (g_tx_modifiable_flags (p_global q)) (p_global p))).
      apply global_combine_self. destruct Hg. constructor; assumption.
    + apply zip_intro; [congruence|congruence|]. intros n j j' E1 E2.
      assert (Hlt : (n < length (p_inputs p))%nat) by (rewrite L1; apply nth_error_Some; congruence).
      destruct (nth_error (p_inputs p) n) as [i|] eqn:Ei; [|apply nth_error_None in Ei; lia]. destruct (Hl n i Ei) as (a & b & Ea & Eb & B1 & B2 & E).
      assert (a = j) by congruence. assert (b = j') by congruence. subst a b. eexists. split; [exact E|]. unfold comb. cbn [fst snd].
      apply sbs_combine; auto. exact (proj1 (Forall_forall _ _) Hi _ (nth_error_In _ _ Ei)).
    + rewrite (sb_outputs _ _ R1), (sb_outputs _ _ S1). apply combine_zip_self. eapply Forall_impl; [|exact Ho]. apply output_combine_self.
  - split; [reflexivity|].
    assert (Hs : forall n i j j', nth_error (p_inputs p) n = Some i -> nth_error (p_inputs q) n = Some j -> nth_error (p_inputs q') n = Some j' ->
       m_sorted sk_pubkey (in_partial_sigs j) /\ m_sorted sk_pubkey (in_partial_sigs j')).
    { intros n i j j' _ Ej Ej'. split; [exact (proj1 (Forall_forall _ _) S2 _ (nth_error_In _ _ Ej))|exact (proj1 (Forall_forall _ _) R2 _ (nth_error_In _ _ Ej'))]. }
    assert (Ec : forall i j j', in_partial_sigs (comb (i, (j, j'))) = comb_map sk_pubkey (in_partial_sigs j) (in_partial_sigs j')) by (intros i j j'; unfold comb; cbn [fst snd]; now destruct i).
    constructor; cbn [p_global p_inputs p_outputs].
    + exact Hsame.
    + apply F_nth. intros n c Hc. assert (Hlt : (N.to_nat n < length (p_inputs p))%nat) by (rewrite <- Hlen; apply nth_error_Some; congruence).
      destruct (nth_error (p_inputs p) (N.to_nat n)) as [i|] eqn:Ei; [|apply nth_error_None in Ei; lia]. destruct (Hl _ i Ei) as (j & j' & Ej & Ej' & _ & _ & E).
      rewrite E in Hc. injection Hc as <-. rewrite Ec. apply (comb_sorted _ sk_pubkey_inj). exact (proj1 (Hs _ i j j' Ei Ej Ej')).
    + intros n i c pk Ei Hc. destruct (Hl _ i Ei) as (j & j' & Ej & Ej' & _ & _ & E). rewrite E in Hc. injection Hc as <-. rewrite Ec.
      rewrite (m_get_comb_map _ sk_pubkey_inj) by exact (proj2 (Hs _ i j j' Ei Ej Ej')). rewrite over_opt, (S4 n i j pk Ei Ej), (R4 n i j' pk Ei Ej'), first_of_app.
      pose proof (agree2 p t (ks ++ ks') n pk Hteam) as Ha.
      assert (Hsub : forall k, In k ks -> In k (ks ++ ks')) by (intros; apply in_or_app; now left).
      assert (Hsub' : forall k, In k ks' -> In k (ks ++ ks')) by (intros; apply in_or_app; now right).
      destruct (first_of (fun k => made_sig k t p n pk) ks) as [a|] eqn:Ea; destruct (first_of (fun k => made_sig k t p n pk) ks') as [b|] eqn:Eb; cbn [over]; try reflexivity.
      * apply (first_of_iff _ ks) in Ea as (k & Hk & Ea); [|exact (agreed_sub _ _ _ Ha Hsub)]. apply (first_of_iff _ ks') in Eb as (k' & Hk' & Eb); [|exact (agreed_sub _ _ _ Ha Hsub')].
        f_equal. symmetry. exact (Ha k k' a b (Hsub _ Hk) (Hsub' _ Hk') Ea Eb).
      * destruct (m_get sk_pubkey pk (in_partial_sigs i)) as [o|] eqn:Eo; [|reflexivity]. cbn [over].
        apply (first_of_iff _ ks) in Ea as (k & Hk & Ea); [|exact (agreed_sub _ _ _ Ha Hsub)].
        f_equal. exact (fresh2 p t _ k n i pk a o Hteam (Hsub _ Hk) Ht Ei Ea Eo).
      * unfold over. now destruct (m_get sk_pubkey pk (in_partial_sigs i)).
Qed.
Lemma state2_unique p t ks ks' q q' : g_tx_modifiable_flags (p_global q) = g_tx_modifiable_flags (p_global q') -> team2 p ks -> (forall k, In k ks <-> In k ks') -> state2 p t ks q -> state2 p t ks' q' -> q = q'.
Proof.
  intros Hf Hteam Hset [S1 S2 S4] [R1 R2 R4]. apply (signed_psbt_ext p q q' S1 R1).
  - intros n. destruct (nth_error (p_inputs p) (N.to_nat n)) as [i|] eqn:Ei.
    + destruct (F2_at _ _ _ (sb_inputs _ _ S1) _ i Ei) as (j & Hj & B1). destruct (F2_at _ _ _ (sb_inputs _ _ R1) _ i Ei) as (j' & Hj' & B2). rewrite Hj, Hj'. f_equal.
      unfold same_but_sigs in *. rewrite B1, B2. f_equal. apply (m_ext sk_pubkey sk_pubkey_inj).
      * exact (proj1 (Forall_forall _ _) S2 _ (nth_error_In _ _ Hj)).
      * exact (proj1 (Forall_forall _ _) R2 _ (nth_error_In _ _ Hj')).
      * intros pk. rewrite (S4 n i j pk Ei Hj), (R4 n i j' pk Ei Hj'). now rewrite (first_of_set _ ks ks' (agree2 p t ks n pk Hteam) Hset).
    + apply nth_error_None in Ei. pose proof (F2_len _ _ _ (sb_inputs _ _ S1)). pose proof (F2_len _ _ _ (sb_inputs _ _ R1)).
      rewrite !(proj2 (nth_error_None _ _)); [reflexivity|lia|lia].
  - exact Hf.
Qed.
Lemma team2_sub p ks ks' : team2 p ks -> (forall k, In k ks' -> In k ks) -> team2 p ks'.
Proof.
  intros [H1 H2] H. constructor.
  - intros k k' i sks sks' a b Hk Hk'. apply H1; auto.
  - intros k t n i m ty sks pk s Hk. apply H2; auto.
Qed.
Lemma made2_state p t ks q : unsigned_tx p = Ok t -> sorted_psbt p -> team2 p ks -> made2 p ks q -> state2 p t ks q /\ flags2 p t q.
Proof.
  intros Ht Hs Hteam H. revert Hteam. induction H as [k q used H|k ks q r used H IH Hk|ks ks' q q' r H IH H' IH' Hc]; intros Hteam.
  - split; [exact (state2_sign p t [] p k q used Ht (state2_start p t Hs) H)|exact (flags2_first p t k q used Ht H)].
  - destruct IH as [I1 I2]; [apply (team2_sub _ _ _ Hteam); intros; now right|].
    split; [exact (state2_sign p t ks q k r used Ht I1 Hk)|exact (flags2_sign p t q k r used Ht (s2_same _ _ _ _ I1) I2 Hk)].
  - destruct IH as [I1 I2]; [apply (team2_sub _ _ _ Hteam); intros; apply in_or_app; now left|].
    destruct IH' as [I1' _]; [apply (team2_sub _ _ _ Hteam); intros; apply in_or_app; now right|].
    destruct (state2_combine p t ks q ks' q' Ht Hs Hteam I1 I1') as (r' & Hr & Hg & Hst). rewrite Hc in Hr. injection Hr as <-.
    split; [exact Hst|]. unfold flags2 in *. now rewrite Hg.
Qed.
Lemma made2_unsigned p ks q : made2 p ks q -> exists t, unsigned_tx p = Ok t.
Proof.
  induction 1 as [k q used H|k ks q r used _ IH _|ks ks' q q' r _ IH _ _ _]; auto. unfold signer_sign, signer_unsigned_tx in H.
  destruct (unsigned_tx p) as [t| |]; [eauto|discriminate|discriminate].
Qed.
Lemma made2_alone p t ks q : unsigned_tx p = Ok t -> sorted_psbt p -> team2 p ks -> made2 p ks q ->
  forall k, In k ks -> exists p' used, signer_sign k p = Ok (p', used).
Proof.
  intros Ht Hs Hteam H. revert Hteam. induction H as [k q used H|k ks q r used H IH Hk|ks ks' q q' r H IH H' IH' Hc]; intros Hteam k' Hin.
  - destruct Hin as [<-|[]]. eauto.
  - assert (T : team2 p ks) by (apply (team2_sub _ _ _ Hteam); intros; now right). destruct Hin as [<-|Hin]; [|now apply IH].
    destruct (made2_state p t ks q Ht Hs T H) as [S1 _]. rewrite (sign_again k p q t Ht (s2_same _ _ _ _ S1)) in Hk. rewrite (signer_sign_eq k p t Ht).
    destruct (existsb _ _); [discriminate|]. destruct (flat_map (error_of k t p) (input_indices p)); [eauto|discriminate].
  - apply in_app_or in Hin as [Hin|Hin]; [apply IH|apply IH']; auto; apply (team2_sub _ _ _ Hteam); intros; apply in_or_app; auto.
Qed.

End Parallel.
