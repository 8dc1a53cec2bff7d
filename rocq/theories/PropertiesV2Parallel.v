(** C119: several signers and combiners on one v2 PSBT. *)
From Verif Require Import Base OMap Consensus Ext ExtInstance Serialize SerializeFacts RawFacts MapCodec V2Global V2Input V2Output V2Psbt V2Roles SpecCombine V2CombineFacts
  SpecPsbt V2PsbtFacts V2Sign SignInstance SpecSign V2SignFacts V2SignMergeFacts SpecParallel V0SignFacts V0ParallelFacts V2ParallelFacts PropertiesV2Sign.
Local Open Scope N_scope.

(** Used by the examples only; the theorems bind their own. *)
#[local] Existing Instance toy | 100.
#[local] Existing Instance toy_sign | 100.
#[local] Existing Instance ex_cfg | 100.

(** However the PSBT was passed around, only who signed matters. *)
Theorem C119_who_signed : forall (X : Ext) (C : Cfg) (S : SignExt) p ks ks' q q',
  sorted_psbt p -> team2 p ks -> (forall k, In k ks <-> In k ks') -> made2 p ks q -> made2 p ks' q' -> q = q'.
Proof.
  intros X C S p ks ks' q q' Hs Ht Hset H H'. destruct (made2_unsigned p ks q H) as [t E].
  destruct (made2_state p t ks q E Hs Ht H) as [S1 F1]. assert (Ht' : team2 p ks') by (apply (team2_sub _ _ _ Ht); intros k Hk; now apply Hset).
  destruct (made2_state p t ks' q' E Hs Ht' H') as [S2 F2]. exact (state2_unique p t ks ks' q q' (flags2_fun _ _ _ _ F1 F2) Ht Hset S1 S2).
Qed.
Print Assumptions C119_who_signed.

(** Nobody is stopped: a signer does with what others made of [p] what it does with [p], with the
    same keys reported and the same errors; any two signed copies can be combined. *)
Theorem C119_goes_on : forall (X : Ext) (C : Cfg) (S : SignExt) p ks q,
  sorted_psbt p -> team2 p ks -> made2 p ks q ->
  (forall k, match signer_sign k p with
             | Ok (_, used) => exists r, signer_sign k q = Ok (r, used)
             | Err e => signer_sign k q = Err e
             | Panic => signer_sign k q = Panic
             end)
  /\ (forall ks' q', team2 p (ks ++ ks') -> made2 p ks' q' -> exists r, psbt_combine q q' = Ok r).
Proof.
  intros X C S p ks q Hs Ht H. destruct (made2_unsigned p ks q H) as [t E]. destruct (made2_state p t ks q E Hs Ht H) as [S1 F1]. split.
  - intros k. rewrite (sign_again k p q t E (s2_same _ _ _ _ S1)), (signer_sign_eq k p t E). destruct (existsb _ _); [reflexivity|].
    destruct (flat_map (error_of k t p) (input_indices p)); [eexists; reflexivity|reflexivity].
  - intros ks' q' Ht' H'. assert (T' : team2 p ks') by (apply (team2_sub _ _ _ Ht'); intros k Hk; apply in_or_app; now right).
    destruct (made2_state p t ks' q' E Hs T' H') as [S2 F2]. destruct (state2_combine p t ks q ks' q' E Hs Ht' S1 S2) as (r & Hr & _). eauto.
Qed.
Print Assumptions C119_goes_on.

(** The result is [p] but for the signatures, which are those of [p] and those that the signers
    make alone, and the flags, which are those that each signer leaves alone. *)
Theorem C119_signatures : forall (X : Ext) (C : Cfg) (S : SignExt) p ks q,
  sorted_psbt p -> team2 p ks -> made2 p ks q ->
  same_but_signed p q
  /\ (forall k, In k ks -> exists p' used, signer_sign k p = Ok (p', used) /\ p_global p' = p_global q)
  /\ (forall n i j pk g, nth_error (p_inputs p) (N.to_nat n) = Some i -> nth_error (p_inputs q) (N.to_nat n) = Some j ->
        (m_get sk_pubkey pk (in_partial_sigs j) = Some g <->
         m_get sk_pubkey pk (in_partial_sigs i) = Some g
         \/ exists k p' used i', In k ks /\ signer_sign k p = Ok (p', used) /\ nth_error (p_inputs p') (N.to_nat n) = Some i'
              /\ m_get sk_pubkey pk (in_partial_sigs i') = Some g)).
Proof.
  intros X C S p ks q Hs Ht H. destruct (made2_unsigned p ks q H) as [t E]. destruct (made2_state p t ks q E Hs Ht H) as [S1 F1].
  pose proof (made2_alone p t ks q E Hs Ht H) as Hall.
  assert (Hone : forall k p' used, signer_sign k p = Ok (p', used) -> state2 p t [k] p' /\ flags2 p t p').
  { intros k p' used Hk. split; [exact (state2_sign p t [] p k p' used E (state2_start p t Hs) Hk)|exact (flags2_first p t k p' used E Hk)]. }
  split; [exact (s2_same _ _ _ _ S1)|]. split.
  - intros k Hk. destruct (Hall k Hk) as (p' & used & Hp'). destruct (Hone k p' used Hp') as [S2 F2]. exists p', used. split; [exact Hp'|].
    rewrite (sb_global _ _ (s2_same _ _ _ _ S1)), (sb_global _ _ (s2_same _ _ _ _ S2)), (flags2_fun _ _ _ _ F1 F2). reflexivity.
  - intros n i j pk g Hi Hj. rewrite (s2_sigs _ _ _ _ S1 n i j pk Hi Hj). pose proof (agree2 p t ks n pk Ht) as Ha.
    assert (Hal : forall k p' used i', signer_sign k p = Ok (p', used) -> nth_error (p_inputs p') (N.to_nat n) = Some i' ->
              m_get sk_pubkey pk (in_partial_sigs i') = over (made_sig k t p n pk) (m_get sk_pubkey pk (in_partial_sigs i))).
    { intros k p' used i' Hk Hi'. destruct (Hone k p' used Hk) as [S2 _]. rewrite (s2_sigs _ _ _ _ S2 n i i' pk Hi Hi'). cbn [first_of]. now destruct (made_sig k t p n pk). }
    assert (Hex : forall k, In k ks -> exists p' used i', signer_sign k p = Ok (p', used) /\ nth_error (p_inputs p') (N.to_nat n) = Some i').
    { intros k Hk. destruct (Hall k Hk) as (p' & used & Hp'). destruct (Hone k p' used Hp') as [S2 _].
      destruct (F2_at _ _ _ (sb_inputs _ _ (s2_same _ _ _ _ S2)) _ i Hi) as (i' & Hi' & _). eauto. }
    destruct (first_of (fun k => made_sig k t p n pk) ks) as [a|] eqn:Ef; cbn [over].
    + apply (first_of_iff _ ks) in Ef as (k & Hk & Ef); [|exact Ha]. split.
      * intros [= <-]. right. destruct (Hex k Hk) as (p' & used & i' & E1 & E2). exists k, p', used, i'. split; [exact Hk|]. split; [exact E1|]. split; [exact E2|].
        now rewrite (Hal k p' used i' E1 E2), Ef.
      * intros [Hg|(k' & p' & used & i' & Hk' & E1 & E2 & E3)].
        { f_equal. symmetry. exact (fresh2 p t ks k n i pk a g Ht Hk E Hi Ef Hg). }
        rewrite (Hal k' p' used i' E1 E2) in E3. unfold over in E3. destruct (made_sig k' t p n pk) as [b|] eqn:Eb.
        { rewrite <- E3. f_equal. exact (Ha k k' a b Hk Hk' Ef Eb). }
        { f_equal. symmetry. exact (fresh2 p t ks k n i pk a g Ht Hk E Hi Ef E3). }
    + split; [auto|]. intros [Hg|(k' & p' & used & i' & Hk' & E1 & E2 & E3)]; [exact Hg|].
      rewrite (Hal k' p' used i' E1 E2) in E3. unfold over in E3. destruct (made_sig k' t p n pk) as [b|] eqn:Eb; [|exact E3].
      exfalso. assert (Hf : first_of (fun k => made_sig k t p n pk) ks = Some b) by (apply (first_of_iff _ ks); eauto). congruence.
Qed.
Print Assumptions C119_signatures.

(** Combining with an unsigned copy: the signed copy wins only if it comes first; otherwise the
    flags that signing changed are lost. *)
Theorem C119_unsigned_copy : forall (X : Ext) (C : Cfg) (S : SignExt) p ks q,
  sorted_psbt p -> team2 p ks -> made2 p ks q ->
  psbt_combine q p = Ok q /\ psbt_combine p q = Ok (Psbt (p_global p) (p_inputs q) (p_outputs q)).
Proof.
  intros X C S p ks q Hs Ht H. destruct (made2_unsigned p ks q H) as [t E]. destruct (made2_state p t ks q E Hs Ht H) as [S1 _].
  pose proof (state2_start p t Hs) as S0. assert (T : team2 p (ks ++ [])) by now rewrite app_nil_r. split.
  - destruct (state2_combine p t ks q [] p E Hs T S1 S0) as (r & Hr & Hg & Hst). rewrite Hr. f_equal. rewrite app_nil_r in Hst.
    apply (state2_unique p t ks ks r q); auto; [now rewrite Hg|intros; reflexivity].
  - destruct (state2_combine p t [] p ks q E Hs Ht S0 S1) as (r & Hr & Hg & Hst). rewrite Hr. f_equal. cbn [app] in Hst.
    apply (state2_unique p t ks ks); auto; [now rewrite Hg|intros; reflexivity|]. destruct S1 as [A B D]. constructor; cbn [p_inputs p_outputs p_global]; auto.
    constructor; cbn [p_inputs p_outputs p_global]; [apply A|apply A|]. now destruct (p_global p).
Qed.
Print Assumptions C119_unsigned_copy.

Definition agreement2b `{SignExt} (p : psbt) (k k' : provider) : bool :=
  forallb (fun i => forallb (fun a => forallb (fun b =>
      negb (bytes_eqb (secret_pubkey (pv_secret a)) (secret_pubkey (pv_secret b))) || bytes_eqb (pv_secret a) (pv_secret b))
      (found k' (in_bip32_derivations i))) (found k (in_bip32_derivations i))) (p_inputs p).
Lemma team2_ok `{X : Ext} `{C : Cfg} `{S : SignExt} p ks :
  forallb (fun k => forallb (agreement2b p k) ks) ks = true -> forallb (fun i => is_empty (in_partial_sigs i)) (p_inputs p) = true -> team2 p ks.
Proof.
  intros H1 H2. rewrite forallb_forall in H1, H2. constructor.
  - intros k k' i sks sks' a b Hk Hk' Hi K K' Ha Hb E. apply found_iff in K. apply found_iff in K'. specialize (H1 k Hk). rewrite forallb_forall in H1. specialize (H1 k' Hk').
    unfold agreement2b in H1. rewrite forallb_forall in H1. specialize (H1 i Hi). rewrite K, K', forallb_forall in H1. specialize (H1 a Ha). rewrite forallb_forall in H1. specialize (H1 b Hb).
    injection E as _ E. rewrite (proj2 (bytes_eqb_eq _ _) E) in H1. now apply bytes_eqb_eq in H1.
  - intros k t n i m ty sks pk s _ _ Hi _ _ _ Hg. exfalso. specialize (H2 i (nth_error_In _ _ Hi)). destruct (in_partial_sigs i); discriminate.
Qed.
Lemma ex_team2 : team2 ex_all [ex_keys [ex_sec_a]; ex_keys [ex_sec_b]; ex_keys [ex_sec_a; ex_sec_b]].
Proof. apply team2_ok; vm_compute; reflexivity. Qed.

(** Three ways for two signers, one of them with both keys. *)
Example C119_example : sorted_psbt ex_all /\ team2 ex_all [ex_keys [ex_sec_a]; ex_keys [ex_sec_b]; ex_keys [ex_sec_a; ex_sec_b]]
  /\ then_holds (signer_sign (ex_keys [ex_sec_a]) ex_all) (fun r1 =>
     then_holds (signer_sign (ex_keys [ex_sec_b]) ex_all) (fun r2 =>
     then_holds (signer_sign (ex_keys [ex_sec_a; ex_sec_b]) ex_all) (fun r3 =>
     then_holds (psbt_combine (fst r1) (fst r2)) (fun q =>
       psbt_combine (fst r2) (fst r1) = Ok q /\ psbt_combine q (fst r3) = Ok q
       /\ psbt_combine (fst r3) (fst r2) = Ok q
       /\ map (fun i => blen (in_partial_sigs i)) (p_inputs q) = [2; 2; 2; 0; 2; 2]))))
  /\ exists q, made2 ex_all [ex_keys [ex_sec_a]; ex_keys [ex_sec_b]] q.
Proof.
  split; [apply wf_sorted, ex_wf; vm_compute; reflexivity|]. split; [exact ex_team2|].
  split; [vm_compute; split; [|split; [|split]]; reflexivity|].
  assert (H : exists p1 u1 p2 u2 q, signer_sign (ex_keys [ex_sec_a]) ex_all = Ok (p1, u1) /\ signer_sign (ex_keys [ex_sec_b]) ex_all = Ok (p2, u2) /\ psbt_combine p1 p2 = Ok q).
  { do 5 eexists. split; [vm_compute; reflexivity|]. split; vm_compute; reflexivity. }
  destruct H as (p1 & u1 & p2 & u2 & q & E1 & E2 & E3). exists q.
  exact (Made2Combine ex_all [ex_keys [ex_sec_a]] [ex_keys [ex_sec_b]] p1 p2 q (Made2First _ _ _ _ E1) (Made2First _ _ _ _ E2) E3).
Qed.

(** So a copy that nobody has signed must not come first. *)
Theorem C119_unsigned_first_refuted : exists (X : Ext) (C : Cfg) (S : SignExt) k p q used r,
  signer_sign k p = Ok (q, used) /\ sorted_psbt p /\ team2 p [k] /\ psbt_combine p q = Ok r /\ r <> q
  /\ g_tx_modifiable_flags (p_global q) = 4 /\ g_tx_modifiable_flags (p_global r) = 3.
Proof.
  exists toy, ex_cfg, toy_sign, (ex_keys [ex_sec_a]), ex_all. do 3 eexists.
  split; [vm_compute; reflexivity|]. split; [apply wf_sorted, ex_wf; vm_compute; reflexivity|]. split; [apply team2_ok; vm_compute; reflexivity|].
  split; [vm_compute; reflexivity|]. split; [|split; vm_compute; reflexivity].
  intros H. apply (f_equal (fun p => g_tx_modifiable_flags (p_global p))) in H. vm_compute in H. discriminate H.
Qed.
Print Assumptions C119_unsigned_first_refuted.
