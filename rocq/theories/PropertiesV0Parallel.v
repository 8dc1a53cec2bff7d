(** C118: several signers and combiners on one v0 PSBT. *)
From Verif Require Import Base OMap Consensus Ext ExtInstance Serialize SerializeFacts MapCodec V2Sign SignInstance SpecSign V2SignFacts
  V0Input V0Output V0Psbt SpecPsbt0 SpecCombine0 V0CombineFacts V0Sign SchnorrInstance SpecExtract0 SpecSign0 V0SignFacts V0SignResultFacts
  SpecParallel0 V0ParallelFacts PropertiesV0Sign.
Local Open Scope N_scope.

(** Used by the examples only; the theorems bind their own. *)
#[local] Existing Instance toy | 100.
#[local] Existing Instance toy_sign | 100.
#[local] Existing Instance toy_schnorr | 100.

(** However the PSBT was passed around, only who signed matters. *)
Theorem C118_who_signed : forall (X : Ext) (S : SignExt) (T : SchnorrExt) p ks ks' q q',
  wf_psbt0 p -> team p ks -> (forall k, In k ks <-> In k ks') -> made p ks q -> made p ks' q' -> q = q'.
Proof. intros X S T p ks ks' q q' Hw. exact (parallel p ks ks' q q' (wf_sorted0 p Hw) (wp0_input_count _ Hw)). Qed.
Print Assumptions C118_who_signed.

(** Nobody is stopped: a signer that can sign [p] can sign what others made of it, and reports
    the same errors; any two copies can be combined. *)
Theorem C118_goes_on : forall (X : Ext) (S : SignExt) (T : SchnorrExt) p ks q,
  wf_psbt0 p -> team p ks -> made p ks q ->
  (forall k p' used errs, psbt0_sign k p = Ok (p', used, errs) -> exists r used', psbt0_sign k q = Ok (r, used', errs))
  /\ (forall ks' q', team p (ks ++ ks') -> made p ks' q' -> exists r, psbt0_combine q q' = Ok r).
Proof.
  intros X S T p ks q Hw Ht H. pose proof (wf_sorted0 p Hw) as Hs. pose proof (wp0_input_count _ Hw) as Hone.
  pose proof (made_state p ks q Hs Hone Ht H) as Hst. split.
  - intros k p' used errs Hk. exact (state_errors p ks q k p' used errs Hs Hone (tm_agree _ _ Ht) Hst Hk).
  - intros ks' q' Ht' H'. assert (Hst' : state p ks' q').
    { apply (made_state p ks' q' Hs Hone); [|exact H']. apply (team_sub _ _ _ Ht'). intros k Hk. apply in_or_app. now right. }
    destruct (state_combine p ks q ks' q' Hs Hone Ht' Hst Hst') as (r & Hr & _). eauto.
Qed.
Print Assumptions C118_goes_on.

(** The signatures of the result are those of [p] and those that the signers make alone. *)
Theorem C118_signatures : forall (X : Ext) (S : SignExt) (T : SchnorrExt) p ks q n i j,
  wf_psbt0 p -> vouts_in_bounds p -> team p ks -> made p ks q ->
  nth_error (p0_inputs p) (N.to_nat n) = Some i -> nth_error (p0_inputs q) (N.to_nat n) = Some j ->
  let alone (has : input0 -> Prop) := exists k p' used errs i', In k ks /\ psbt0_sign k p = Ok (p', used, errs)
        /\ nth_error (p0_inputs p') (N.to_nat n) = Some i' /\ has i' in
  same_but_sigs0 i j
  /\ (forall pk g, let has i := m_get sk_pubkey pk (i0_partial_sigs i) = Some g in has j <-> has i \/ alone has)
  /\ (forall g, let has i := i0_tap_key_sig i = Some g in has j <-> has i \/ alone has)
  /\ (forall xl g, let has i := m_get sk_xleaf xl (i0_tap_script_sigs i) = Some g in has j <-> has i \/ alone has).
Proof.
  intros X S T p ks q n i j Hw Hb Ht H Hi Hj. cbv zeta. pose proof (wf_sorted0 p Hw) as Hs. pose proof (wp0_input_count _ Hw) as Hone.
  pose proof (made_state p ks q Hs Hone Ht H) as [S1 S2 S3]. destruct (S3 n i j Hi Hj) as (G1 & G2 & G3).
  split; [exact (F2_get _ _ _ (sb0_inputs _ _ S1) _ _ _ Hi Hj)|].
  assert (Halone : forall k, In k ks -> exists p' used errs i', psbt0_sign k p = Ok (p', used, errs) /\ nth_error (p0_inputs p') (N.to_nat n) = Some i'
     /\ (forall pk, m_get sk_pubkey pk (i0_partial_sigs i') = over (made_ecdsa k p n pk) (m_get sk_pubkey pk (i0_partial_sigs i)))
     /\ i0_tap_key_sig i' = over (i0_tap_key_sig i) (made_key k p n)
     /\ (forall x lh, m_get sk_xleaf (x, lh) (i0_tap_script_sigs i') = over (m_get sk_xleaf (x, lh) (i0_tap_script_sigs i)) (made_leaf k p n x lh))).
  { intros k Hk. destruct (sign0_ok k p Hb) as (p' & used & errs & Hp').
    assert (Hst : state p [k] p').
    { apply (state_sign p [] p k p' used errs Hs Hone); [|now apply state_start|exact Hp'].
      intros a b [<-|[]] [<-|[]]. now apply (tm_agree _ _ Ht). }
    destruct (nth_error (p0_inputs p') (N.to_nat n)) as [i'|] eqn:Ei'.
    2:{ exfalso. apply nth_error_None in Ei'. rewrite (same_signed0_len _ _ (st_same _ _ _ Hst)) in Ei'. apply nth_error_None in Ei'. congruence. }
    destruct (st_sigs _ _ _ Hst n i i' Hi Ei') as (A1 & A2 & A3). exists p', used, errs, i'. split; [exact Hp'|]. split; [exact Ei'|].
    cbn [first_of] in *. assert (O : forall A (a : option A), over a None = a) by (intros A []; reflexivity).
    rewrite O in A2. split; [intros pk; now rewrite A1, O|]. split; [exact A2|]. intros x lh. now rewrite A3, O. }
  assert (Hun : forall k p' used errs i', In k ks -> psbt0_sign k p = Ok (p', used, errs) -> nth_error (p0_inputs p') (N.to_nat n) = Some i' ->
     (forall pk, m_get sk_pubkey pk (i0_partial_sigs i') = over (made_ecdsa k p n pk) (m_get sk_pubkey pk (i0_partial_sigs i)))
     /\ i0_tap_key_sig i' = over (i0_tap_key_sig i) (made_key k p n)
     /\ (forall x lh, m_get sk_xleaf (x, lh) (i0_tap_script_sigs i') = over (m_get sk_xleaf (x, lh) (i0_tap_script_sigs i)) (made_leaf k p n x lh))).
  { intros k p' used errs i' Hk Hp' Hi'. destruct (Halone k Hk) as (p2 & used2 & errs2 & i2 & E1 & E2 & E3). rewrite Hp' in E1. inj E1. injection E1 as <- <- <-.
    rewrite Hi' in E2. injection E2 as <-. exact E3. }
  split; [|split].
  - intros pk g. rewrite G1. pose proof (agree_ecdsa p ks n pk (tm_agree _ _ Ht)) as Ha.
    destruct (first_of (fun k => made_ecdsa k p n pk) ks) as [a|] eqn:E; cbn [over].
    + apply (first_of_iff _ ks) in E as (k & Hk & E); [|exact Ha]. split.
      * intros [= <-]. right. destruct (Halone k Hk) as (p' & used & errs & i' & E1 & E2 & E3 & _). exists k, p', used, errs, i'.
        split; [exact Hk|]. split; [exact E1|]. split; [exact E2|]. now rewrite E3, E.
      * intros [Hg|(k' & p' & used & errs & i' & Hk' & E1 & E2 & E3)].
        { f_equal. symmetry. exact (fresh_ecdsa p k n i pk a g (tm_fresh _ _ Ht k Hk) Hone Hi E Hg). }
        destruct (Hun k' p' used errs i' Hk' E1 E2) as (F & _). rewrite F in E3. unfold over in E3. destruct (made_ecdsa k' p n pk) as [b|] eqn:Eb.
        { rewrite <- E3. f_equal. exact (Ha k k' a b Hk Hk' E Eb). }
        { f_equal. symmetry. exact (fresh_ecdsa p k n i pk a g (tm_fresh _ _ Ht k Hk) Hone Hi E E3). }
    + split; [auto|]. intros [Hg|(k' & p' & used & errs & i' & Hk' & E1 & E2 & E3)]; [exact Hg|].
      destruct (Hun k' p' used errs i' Hk' E1 E2) as (F & _). rewrite F in E3. unfold over in E3. destruct (made_ecdsa k' p n pk) as [b|] eqn:Eb; [|exact E3].
      exfalso. assert (Hf : first_of (fun k => made_ecdsa k p n pk) ks = Some b) by (apply (first_of_iff _ ks); eauto). congruence.
  - intros g. rewrite G2. pose proof (agree_key p ks n Hs (tm_agree _ _ Ht)) as Ha. destruct (i0_tap_key_sig i) as [o|] eqn:Eo; cbn [over].
    + split; [auto|]. intros [Hg|(k' & p' & used & errs & i' & Hk' & E1 & E2 & E3)]; [exact Hg|]. destruct (Hun k' p' used errs i' Hk' E1 E2) as (_ & F & _).
      rewrite F in E3. cbn [over] in E3. congruence.
    + rewrite (first_of_iff _ ks g Ha). split.
      * intros (k & Hk & E). right. destruct (Halone k Hk) as (p' & used & errs & i' & E1 & E2 & _ & E3 & _). exists k, p', used, errs, i'.
        split; [exact Hk|]. split; [exact E1|]. split; [exact E2|]. now rewrite E3.
      * intros [Hg|(k' & p' & used & errs & i' & Hk' & E1 & E2 & E3)]; [discriminate|]. destruct (Hun k' p' used errs i' Hk' E1 E2) as (_ & F & _).
        rewrite F in E3. cbn [over] in E3. eauto.
  - intros [x lh] g. rewrite G3. pose proof (agree_leaf p ks n x lh Hs (tm_agree _ _ Ht)) as Ha. destruct (m_get sk_xleaf (x, lh) (i0_tap_script_sigs i)) as [o|] eqn:Eo; cbn [over].
    + split; [auto|]. intros [Hg|(k' & p' & used & errs & i' & Hk' & E1 & E2 & E3)]; [exact Hg|]. destruct (Hun k' p' used errs i' Hk' E1 E2) as (_ & _ & F).
      rewrite F, Eo in E3. cbn [over] in E3. congruence.
    + rewrite (first_of_iff _ ks g Ha). split.
      * intros (k & Hk & E). right. destruct (Halone k Hk) as (p' & used & errs & i' & E1 & E2 & _ & _ & E3). exists k, p', used, errs, i'.
        split; [exact Hk|]. split; [exact E1|]. split; [exact E2|]. now rewrite E3, Eo.
      * intros [Hg|(k' & p' & used & errs & i' & Hk' & E1 & E2 & E3)]; [discriminate|]. destruct (Hun k' p' used errs i' Hk' E1 E2) as (_ & _ & F).
        rewrite F, Eo in E3. cbn [over] in E3. eauto.
Qed.
Print Assumptions C118_signatures.

(** For two signers: signing in turn, in either order, is signing apart and combining, in either
    order. *)
Theorem C118_two : forall (X : Ext) (S : SignExt) (T : SchnorrExt) k1 k2 p p1 p2 u1 u2 e1 e2,
  wf_psbt0 p -> team p [k1; k2] -> psbt0_sign k1 p = Ok (p1, u1, e1) -> psbt0_sign k2 p = Ok (p2, u2, e2) ->
  exists p12 u u', psbt0_sign k2 p1 = Ok (p12, u, e2) /\ psbt0_sign k1 p2 = Ok (p12, u', e1)
    /\ psbt0_combine p1 p2 = Ok p12 /\ psbt0_combine p2 p1 = Ok p12.
Proof.
  intros X S T k1 k2 p p1 p2 u1 u2 e1 e2 Hw Ht H1 H2.
  assert (M1 : made p [k1] p1) by (eapply MadeSign; [apply MadeStart|exact H1]).
  assert (M2 : made p [k2] p2) by (eapply MadeSign; [apply MadeStart|exact H2]).
  assert (T1 : team p [k1]) by (apply (team_sub _ _ _ Ht); intros k [<-|[]]; now left).
  assert (T2 : team p [k2]) by (apply (team_sub _ _ _ Ht); intros k [<-|[]]; right; now left).
  assert (T21 : team p [k2; k1]) by (apply (team_sub _ _ _ Ht); cbn; tauto).
  destruct (C118_goes_on X S T p [k1] p1 Hw T1 M1) as [A1 A2]. destruct (C118_goes_on X S T p [k2] p2 Hw T2 M2) as [B1 B2].
  destruct (A1 k2 p2 u2 e2 H2) as (q1 & v1 & E1). destruct (B1 k1 p1 u1 e1 H1) as (q2 & v2 & E2).
  destruct (A2 [k2] p2 Ht M2) as (q3 & E3). destruct (B2 [k1] p1 T21 M1) as (q4 & E4).
  assert (N1 : made p [k2; k1] q1) by (eapply MadeSign; [exact M1|exact E1]).
  assert (N2 : made p [k1; k2] q2) by (eapply MadeSign; [exact M2|exact E2]).
  assert (N3 : made p [k1; k2] q3) by exact (MadeCombine p [k1] [k2] p1 p2 q3 M1 M2 E3).
  assert (N4 : made p [k2; k1] q4) by exact (MadeCombine p [k2] [k1] p2 p1 q4 M2 M1 E4).
  assert (Hset : forall k, In k [k2; k1] <-> In k [k1; k2]) by (intros k; cbn; tauto).
  assert (q2 = q1) by (symmetry; exact (C118_who_signed X S T p _ _ _ _ Hw T21 Hset N1 N2)).
  assert (q3 = q1) by (symmetry; exact (C118_who_signed X S T p _ _ _ _ Hw T21 Hset N1 N3)).
  assert (q4 = q1) by (symmetry; exact (C118_who_signed X S T p _ _ _ _ Hw T21 (fun k => iff_refl _) N1 N4)).
  subst. exists q1, v1, v2. auto.
Qed.
Print Assumptions C118_two.

(** Signers for some of the keys of the examples, and a check for being a team. *)
Definition ex0_part (l : list N) : provider := fun r =>
  match r with
  | KRBip32 (KeySource _ (n :: _)) => if existsb (N.eqb n) l then ex0_keys r else inr None
  | _ => inr None
  end.
Definition agreementb `{SignExt} (p : psbt0) (k k' : provider) : bool :=
  forallb (fun i =>
    forallb (fun a => forallb (fun b =>
      negb (bytes_eqb (secret_pubkey (pv_secret a)) (secret_pubkey (pv_secret b))) || bytes_eqb (pv_secret a) (pv_secret b))
      (found k' (i0_bip32_derivation i))) (found k (i0_bip32_derivation i))
    && forallb (fun o => match k (KRBip32 (snd (snd o))), k' (KRBip32 (snd (snd o))) with
                         | inr (Some a), inr (Some b) => bytes_eqb (pv_secret a) (pv_secret b)
                         | _, _ => true
                         end) (i0_tap_key_origins i)) (p0_inputs p).
Lemma agreementb_ok `{SignExt} p k k' : agreementb p k k' = true -> in_agreement p k k'.
Proof.
  intros Hb. unfold agreementb in Hb. rewrite forallb_forall in Hb. constructor.
  - intros i sks sks' a b Hi Hk Hk' Ha Hb' E. apply found_iff in Hk. apply found_iff in Hk'. specialize (Hb i Hi). apply andb_prop in Hb as [Hb _].
    rewrite Hk, Hk', forallb_forall in Hb. specialize (Hb a Ha). rewrite forallb_forall in Hb. specialize (Hb b Hb').
    injection E as _ E. rewrite (proj2 (bytes_eqb_eq _ _) E) in Hb. now apply bytes_eqb_eq in Hb.
  - intros i x lhs src a b Hi Ho Ha Hb'. specialize (Hb i Hi). apply andb_prop in Hb as [_ Hb]. rewrite forallb_forall in Hb. specialize (Hb _ Ho).
    cbn [snd] in Hb. rewrite Ha, Hb' in Hb. now apply bytes_eqb_eq in Hb.
Qed.
Lemma unsigned_fresh `{X : Ext} `{S : SignExt} k p : forallb (fun i => is_empty (i0_partial_sigs i)) (p0_inputs p) = true -> no_old_signature0 k p.
Proof.
  intros Hb n [t i] sks m ty pk g Hs _ _ _ Hg. exfalso. apply spend_at_iff in Hs as [_ Hi]. apply nth_error_In in Hi.
  rewrite forallb_forall in Hb. specialize (Hb i Hi). cbn [snd] in Hg. destruct (i0_partial_sigs i); discriminate.
Qed.
Lemma teamb_ok `{X : Ext} `{S : SignExt} p ks : forallb (fun i => is_empty (i0_partial_sigs i)) (p0_inputs p) = true ->
  forallb (fun k => forallb (agreementb p k) ks) ks = true -> team p ks.
Proof.
  intros H1 H2. rewrite forallb_forall in H2. constructor.
  - intros k k' Hk Hk'. specialize (H2 k Hk). rewrite forallb_forall in H2. exact (agreementb_ok p k k' (H2 k' Hk')).
  - intros k _. now apply unsigned_fresh.
Qed.

Example C118_example :
  let a := ex0_part [1; 3] in let b := ex0_part [2; 3] in let c := ex0_part [1; 4] in
  wf_psbt0 ex0_all /\ team ex0_all [a; b; c]
  /\ then_holds (psbt0_sign a ex0_all) (fun ra => then_holds (psbt0_sign b ex0_all) (fun rb => then_holds (psbt0_sign c ex0_all) (fun rc =>
     then_holds (psbt0_combine (fst (fst rb)) (fst (fst rc))) (fun bc => then_holds (psbt0_combine (fst (fst ra)) bc) (fun abc =>
     then_holds (psbt0_sign b (fst (fst ra))) (fun rab => then_holds (psbt0_sign c (fst (fst rab))) (fun rabc =>
       fst (fst rabc) = abc
       /\ map (fun i => (blen (i0_partial_sigs i), blen (i0_tap_script_sigs i))) (p0_inputs abc) = [(2, 0); (2, 0); (2, 0); (0, 2); (2, 0); (2, 0)]
       /\ map (fun i => (blen (i0_partial_sigs i), blen (i0_tap_script_sigs i))) (p0_inputs bc) = [(2, 0); (2, 0); (2, 0); (0, 2); (2, 0); (2, 0)]
       /\ map (fun i => (blen (i0_partial_sigs i), blen (i0_tap_script_sigs i))) (p0_inputs (fst (fst ra))) = [(1, 0); (1, 0); (1, 0); (0, 0); (1, 0); (1, 0)]))))))).
Proof.
  cbv zeta. split; [exact ex0_all_wf|]. split; [apply teamb_ok; vm_compute; reflexivity|]. vm_compute.
  split; [reflexivity|]. split; [reflexivity|]. split; reflexivity.
Qed.

(** An older signature under a key of a signer can come back when combining ... *)
Theorem C118_old_signature_refuted : exists (X : Ext) (S : SignExt) (T : SchnorrExt) k1 k2 p p1 p2 u1 u2 p12 u q,
  wf_psbt0 p /\ (forall k k', In k [k1; k2] -> In k' [k1; k2] -> in_agreement p k k')
  /\ psbt0_sign k1 p = Ok (p1, u1, []) /\ psbt0_sign k2 p = Ok (p2, u2, [])
  /\ psbt0_sign k2 p1 = Ok (p12, u, []) /\ psbt0_combine p1 p2 = Ok q /\ q <> p12.
Proof.
  set (p := ex0_of [set_i0_partial_sigs [(PubKey true (ex0_pk 1), ESig (toy_sig [] []) 1)] ex0_wpkh]).
  exists toy, toy_sign, toy_schnorr, (ex0_part [1]), (ex0_part [2]), p. do 7 eexists.
  split; [apply ex0_wf; vm_compute; reflexivity|]. split.
  { assert (Hb : forallb (fun k => forallb (agreementb p k) [ex0_part [1]; ex0_part [2]]) [ex0_part [1]; ex0_part [2]] = true) by (vm_compute; reflexivity).
    intros k k' Hk Hk'. rewrite forallb_forall in Hb. specialize (Hb k Hk). rewrite forallb_forall in Hb. exact (agreementb_ok p k k' (Hb k' Hk')). }
  split; [vm_compute; reflexivity|]. split; [vm_compute; reflexivity|]. split; [vm_compute; reflexivity|]. split; [vm_compute; reflexivity|]. vm_compute. discriminate.
Qed.
Print Assumptions C118_old_signature_refuted.

(** ... and signers with different keys for one taproot key do not get the same in turn as apart. *)
Definition ex0_wrong : provider := fun r => match r with KRBip32 (KeySource _ [4]) => inr (Some (ex0_sk 7)) | _ => inr None end.
Theorem C118_disagree_refuted : exists (X : Ext) (S : SignExt) (T : SchnorrExt) k1 k2 p p1 p2 u1 u2 p12 u q,
  wf_psbt0 p /\ (forall k, no_old_signature0 k p)
  /\ psbt0_sign k1 p = Ok (p1, u1, []) /\ psbt0_sign k2 p = Ok (p2, u2, [])
  /\ psbt0_sign k2 p1 = Ok (p12, u, []) /\ psbt0_combine p1 p2 = Ok q /\ q <> p12.
Proof.
  exists toy, toy_sign, toy_schnorr, (ex0_part [4]), ex0_wrong, (ex0_of [ex0_tr]). do 7 eexists.
  split; [apply ex0_wf; vm_compute; reflexivity|]. split; [intros k; apply unsigned_fresh; vm_compute; reflexivity|].
  split; [vm_compute; reflexivity|]. split; [vm_compute; reflexivity|]. split; [vm_compute; reflexivity|]. split; [vm_compute; reflexivity|]. vm_compute. discriminate.
Qed.
Print Assumptions C118_disagree_refuted.
