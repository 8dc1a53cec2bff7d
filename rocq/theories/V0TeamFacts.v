(** Facts about several signers of whom each has the keys of some inputs. *)
From Coq Require Import Sorted.
From Verif Require Import Base OMap Consensus ConsensusFacts Ext Raw TapTree SpecCodec Serialize SerializeFacts MapCodec
  SpecPsbt SpecRoles V2Roles Script SighashType V2Sign SpecSign V2RolesFacts V2SignFacts V2Finalize SpecFinalize
  V0Error V0Input V0Output V0Psbt SpecPsbt0 SpecCombine0 V0CombineFacts V0WireFacts SpecExtract0 V0ExtractFacts V0Sign SpecSign0 V0SignFacts V0SignResultFacts
  V0Finalize SpecFinalize0 V0FinalizeFacts V0Update SpecUpdate0 V0UpdateFacts V0UpdateSignFacts V0UpdatePsbtFacts
  SpecWorkflow0 SpecTeam0 SpecParallel0 V0ParallelFacts V0WorkflowFacts PropertiesV0Sign PropertiesV0Finalize.
Local Open Scope N_scope.

Section Team.
Context `{X : Ext} {L : ExtLaws X} `{S : SignExt} `{T : SchnorrExt} {LD : DescLaws T} {LT : SchnorrLaws S T} `{D : DescExt}
  `{M : MsExt} `{NM : !MsNmExt M} {ML : MsLaws X M} {NL : MsNmLaws M NM} {KL : KeySpendLaws X S T M}.

Lemma single_fun d k k' : single d k -> single d k' -> k = k'.
Proof. intros H H'. destruct (single_proper d k H) as (_ & _ & E). destruct (single_proper d k' H') as (_ & _ & E'). congruence. Qed.
Lemma single_not_tr k tree k' : ~ single (DscTr k tree) k'.
Proof. intros [E|[[E|E] _]]; discriminate E. Qed.

(** What a signer without the key makes, or with it. *)
Lemma found_single prov d i i1 k : input_updated d i i1 -> untouched i -> wf_input0 i1 -> single d k ->
  i0_bip32_derivation i1 = [(pub_inner (fst k), snd k)] /\ i0_tap_key_origins i1 = []
  /\ (signable prov d \/ unable prov d -> found prov (i0_bip32_derivation i1) = [] \/ exists sk, found prov (i0_bip32_derivation i1) = [sk] /\ public_of sk = fst k).
Proof.
  intros Hup (_ & Hbd & _ & Hor) W1 Hd. destruct (single_proper d k Hd) as (_ & Ht & Hall).
  assert (E : i0_bip32_derivation i1 = [(pub_inner (fst k), snd k)]).
  { pose proof (wi0_bip32 _ W1) as [Hso _]. destruct Hup as [ders _ Hders|ik tree o sc E _ _]; [|destruct Ht; do 2 eexists; exact E].
    rewrite Hall, Hbd in Hders. cbn in Hso |- *. now apply sources_one. }
  split; [exact E|]. split.
  { destruct Hup as [ders _ _|ik tree o sc E' _ _]; [now destruct i|destruct Ht; do 2 eexists; exact E']. }
  rewrite E. intros [Hs|Hs].
  - right. inversion Hs as [d' k' sk Hd' Hk Hpub|k' sk Hk Hpub]; subst; [|destruct (single_not_tr _ _ _ Hd)].
    pose proof (single_fun d k k' Hd Hd') as <-. exists sk. split; [|exact Hpub]. apply found_iff. constructor; [exact Hk|constructor].
  - left. inversion Hs as [d' k' Hd' Hno|k' Hno]; subst; [|destruct (single_not_tr _ _ _ Hd)].
    pose proof (single_fun d k k' Hd Hd') as <-. apply found_iff. apply KMissing; [exact Hno|constructor].
Qed.
Lemma origins_single i i1 k : input_updated (DscTr k None) i i1 -> untouched i -> wf_input0 i1 ->
  i0_bip32_derivation i1 = [] /\ forall x lhs src, m_get bkey x (i0_tap_key_origins i1) = Some (lhs, src) -> lhs = [] /\ src = snd k.
Proof.
  intros Hup (_ & Hbd & _ & Hor) W1. destruct Hup as [ders Ht _|ik tree o sc E Ho _]; [destruct Ht; do 2 eexists; reflexivity|]. injection E as <- <-.
  split; [now destruct i|]. intros x lhs src G. cbn in G. apply (proj1 (Ho _ _)) in G. rewrite Hor in G.
  inversion G as [hs Ex Ha Hh|hs0 hs src0 Hx G0|hs src0 Hx G0 Ha Hh (l1 & k' & l2 & E3 & _)]; subst; [|discriminate G0|destruct l1; discriminate E3].
  split; [|reflexivity]. destruct lhs as [|h hs]; [reflexivity|]. destruct (proj1 (Hh h) (or_introl eq_refl)) as (l & k' & [] & _).
Qed.

(** Whoever makes a signature for the input has the key, and so makes it whoever has the key. *)
Lemma made_sub prov k p n ti i i1 d : spend_at p n (ti, i1) -> input_updated d i i1 -> untouched i -> wf_input0 i1 ->
  signable prov d -> signable k d \/ unable k d ->
  (forall pk, made_ecdsa k p n pk <> None -> made_ecdsa prov p n pk <> None)
  /\ (made_key k p n <> None -> made_key prov p n <> None)
  /\ (forall x lh, made_leaf k p n x lh <> None -> made_leaf prov p n x lh <> None).
Proof.
  intros Hs Hup Hun W1 Hp Hk. pose proof (proj2 (proj1 (spend_at_iff _ _ _ _) Hs)) as Hi1.
  assert (Hcases : (exists kk, single d kk) \/ exists kk sk, d = DscTr kk None /\ prov (KRBip32 (snd kk)) = inr (Some sk)).
  { inversion Hp as [d' kk sk Hd _ _|kk sk Hkk _]; subst; eauto 6. }
  destruct Hcases as [[kk Hd]|(kk & sk & -> & Hsk)].
  - destruct (found_single prov d i i1 kk Hup Hun W1 Hd) as (E & Eo & F1). destruct (found_single k d i i1 kk Hup Hun W1 Hd) as (_ & _ & F2).
    assert (Ko : forall k0 x, key_of k0 i1 x = None) by (intros k0 x; unfold key_of; rewrite Eo; reflexivity).
    split; [|split].
    + intros pk. unfold made_ecdsa. rewrite Hi1. destruct (psbt0_signing_algorithm p n) as [[|]|e|]; auto.
      destruct (psbt0_sighash_ecdsa p n (p0_unsigned_tx p)) as [[m ty]|e|]; auto.
      destruct (F2 Hk) as [->|(sk2 & -> & P2)]; [cbn; congruence|].
      destruct (F1 (or_introl Hp)) as [F|(sk1 & -> & P1)].
      { exfalso. inversion Hp as [d' k' sk' Hd' Hk' Hpub|k' sk' Hk' Hpub]; subst; [|destruct (single_not_tr _ _ _ Hd)].
        pose proof (single_fun d kk k' Hd Hd') as <-. rewrite E in F. apply found_iff in F. pose proof (keys_one prov _ _ sk' [] Hk' F). discriminate. }
      intros H. assert (Epk : pk = fst kk).
      { destruct (m_get sk_pubkey pk (add_sigs m ty [] [sk2])) as [g|] eqn:Eg; [|congruence]. apply add_sigs_get in Eg as [Eg|[_ Eg]]; [|discriminate].
        apply signature_in in Eg. cbn in Eg. destruct Eg as [<-|[]]. exact P2. }
      subst pk. intros Hn. apply add_sigs_none in Hn as [Hn _]. apply Hn. left. exact P1.
    + unfold made_key. rewrite Hi1. intros H. exfalso. apply H. destruct (psbt0_signing_algorithm p n) as [[|]|e|]; auto.
      destruct (psbt0_sighash_taproot p n (p0_unsigned_tx p) None) as [[m ty]|e|]; auto. destruct (i0_tap_internal_key i1); [|reflexivity]. now rewrite Ko.
    + intros x lh. unfold made_leaf. rewrite Hi1. intros H. exfalso. apply H. destruct (psbt0_signing_algorithm p n) as [[|]|e|]; auto.
      destruct (psbt0_sighash_taproot p n (p0_unsigned_tx p) (Some lh)) as [[m ty]|e|]; auto. now rewrite Ko.
  - destruct (origins_single i i1 kk Hup Hun W1) as [Eb Ho].
    assert (Ko : forall k0 x, match key_of k0 i1 x with Some (lhs, _) => lhs = [] /\ exists sk, key_of prov i1 x = Some ([], sk) | None => True end).
    { intros k0 x. unfold key_of. destruct (m_get bkey x (i0_tap_key_origins i1)) as [[lhs src]|] eqn:E; [|exact Logic.I].
      destruct (Ho x lhs src E) as [-> ->]. destruct (k0 (KRBip32 (snd kk))) as [|[|]]; auto. rewrite Hsk. eauto. }
    split; [|split].
    + intros pk. unfold made_ecdsa. rewrite Hi1, Eb. cbn [found]. auto.
    + unfold made_key. rewrite Hi1. destruct (psbt0_signing_algorithm p n) as [[|]|e|]; auto.
      destruct (psbt0_sighash_taproot p n (p0_unsigned_tx p) None) as [[m ty]|e|]; auto. destruct (i0_tap_internal_key i1) as [x|]; auto.
      specialize (Ko k x). destruct (key_of k i1 x) as [[lhs s]|]; [|congruence]. destruct Ko as [-> [s' ->]]. discriminate.
    + intros x lh. unfold made_leaf. rewrite Hi1. destruct (psbt0_signing_algorithm p n) as [[|]|e|]; auto.
      destruct (psbt0_sighash_taproot p n (p0_unsigned_tx p) (Some lh)) as [[m ty]|e|]; auto.
      specialize (Ko k x). destruct (key_of k i1 x) as [[lhs s]|]; [|congruence]. destruct Ko as [-> _]. cbn. congruence.
Qed.

Lemma first_of_one {A} (f : provider -> option A) ks k0 : agreed f ks -> In k0 ks -> (forall k, In k ks -> f k <> None -> f k0 <> None) ->
  first_of f ks = f k0.
Proof.
  intros Ha Hin Hsub. destruct (first_of f ks) as [a|] eqn:E.
  - apply (first_of_iff f ks a Ha) in E as (k & Hk & E). destruct (f k0) as [b|] eqn:Eb; [|exfalso; apply (Hsub k Hk); congruence].
    f_equal. exact (Ha k k0 a b Hk Hin E Eb).
  - destruct (f k0) as [b|] eqn:Eb; [|reflexivity]. assert (G : first_of f ks = Some b) by (apply first_of_iff; eauto). congruence.
Qed.

(** The input of what all made is that of what one signer with its key makes alone. *)
Lemma team_input p1 ks p2 k0 p' used errs n ti i i1 d : wf_psbt0 p1 -> team p1 ks -> made p1 ks p2 -> In k0 ks -> psbt0_sign k0 p1 = Ok (p', used, errs) ->
  spend_at p1 n (ti, i1) -> input_updated d i i1 -> untouched i -> signable k0 d -> (forall k, In k ks -> signable k d \/ unable k d) ->
  nth_error (p0_inputs p2) (N.to_nat n) = nth_error (p0_inputs p') (N.to_nat n).
Proof.
  intros W1 Ht Hm Hk0 Hp' Hs Hup Hun Hsg Hall. pose proof (wf_sorted0 p1 W1) as Hso. pose proof (wp0_input_count _ W1) as Hone.
  pose proof (made_state p1 ks p2 Hso Hone Ht Hm) as [S1 S2 S3].
  assert (T1 : team p1 [k0]) by (apply (team_sub _ _ _ Ht); intros k [<-|[]]; exact Hk0).
  assert (M1 : made p1 [k0] p') by (eapply MadeSign; [apply MadeStart|exact Hp']).
  pose proof (made_state p1 [k0] p' Hso Hone T1 M1) as [R1 R2 R3].
  pose proof (proj2 (proj1 (spend_at_iff _ _ _ _) Hs)) as Ei.
  assert (Wi : wf_input0 i1) by (pose proof (wp0_inputs _ W1) as G; rewrite Forall_forall in G; apply G; eapply nth_error_In; exact Ei).
  assert (Hn : (N.to_nat n < length (p0_inputs p1))%nat) by (apply nth_error_Some; congruence).
  destruct (nth_error (p0_inputs p2) (N.to_nat n)) as [j|] eqn:Ej; [|apply nth_error_None in Ej; rewrite (same_signed0_len _ _ S1) in Ej; lia].
  destruct (nth_error (p0_inputs p') (N.to_nat n)) as [j'|] eqn:Ej'; [|apply nth_error_None in Ej'; rewrite (same_signed0_len _ _ R1) in Ej'; lia].
  f_equal. pose proof (F2_get _ _ _ (sb0_inputs _ _ S1) _ _ _ Ei Ej) as B1. pose proof (F2_get _ _ _ (sb0_inputs _ _ R1) _ _ _ Ei Ej') as B2.
  destruct (S3 n i1 j Ei Ej) as (G1 & G2 & G3). destruct (R3 n i1 j' Ei Ej') as (K1 & K2 & K3).
  pose proof (proj1 (Forall_forall _ _) (sp0_inputs _ S2) _ (nth_error_In _ _ Ej)) as Sj. pose proof (proj1 (Forall_forall _ _) (sp0_inputs _ R2) _ (nth_error_In _ _ Ej')) as Sj'.
  pose proof (fun k Hk => made_sub k0 k p1 n ti i i1 d Hs Hup Hun Wi Hsg (Hall k Hk)) as Hsub.
  assert (O : forall A (a : option A), over a None = a) by (intros A []; reflexivity).
  unfold same_but_sigs0 in *. rewrite B1, B2. f_equal; [|f_equal; [|f_equal]].
  - apply (m_ext sk_xleaf sk_xleaf_inj); [apply Sj|apply Sj'|]. intros [x lh]. rewrite G3, K3. cbn [first_of]. rewrite O. f_equal.
    apply (first_of_one (fun k => made_leaf k p1 n x lh)); [exact (agree_leaf p1 ks n x lh Hso (tm_agree _ _ Ht))|exact Hk0|]. intros k Hk. exact (proj2 (proj2 (Hsub k Hk)) x lh).
  - rewrite G2, K2. cbn [first_of]. rewrite O. f_equal.
    apply (first_of_one (fun k => made_key k p1 n)); [exact (agree_key p1 ks n Hso (tm_agree _ _ Ht))|exact Hk0|]. intros k Hk. exact (proj1 (proj2 (Hsub k Hk))).
  - apply (m_ext sk_pubkey sk_pubkey_inj); [apply Sj|apply Sj'|]. intros pk. rewrite G1, K1. cbn [first_of]. rewrite O. f_equal.
    apply (first_of_one (fun k => made_ecdsa k p1 n pk)); [exact (agree_ecdsa p1 ks n pk (tm_agree _ _ Ht))|exact Hk0|]. intros k Hk. exact (proj1 (Hsub k Hk) pk).
Qed.

(** With a key more than once among the signers, it does not matter which of them sign. *)
Lemma team_same p1 ks ks' q q' : wf_psbt0 p1 -> team p1 (ks ++ ks') -> made p1 ks q -> made p1 ks' q' ->
  (forall n ti i1, spend_at p1 n (ti, i1) -> exists i d, input_updated d i i1 /\ untouched i /\ team_for ks d /\ team_for ks' d) ->
  vouts_in_bounds p1 -> q = q'.
Proof.
  intros W1 Ht Hm Hm' Hall Hb. pose proof (wf_sorted0 p1 W1) as Hso. pose proof (wp0_input_count _ W1) as Hone.
  assert (T1 : team p1 ks) by (apply (team_sub _ _ _ Ht); intros; apply in_or_app; now left).
  assert (T2 : team p1 ks') by (apply (team_sub _ _ _ Ht); intros; apply in_or_app; now right).
  pose proof (made_state p1 ks q Hso Hone T1 Hm) as S1. pose proof (made_state p1 ks' q' Hso Hone T2 Hm') as S2.
  destruct (state_combine p1 ks q ks' q' Hso Hone Ht S1 S2) as (r & Hr & _).
  assert (Hmr : made p1 (ks ++ ks') r) by exact (MadeCombine p1 ks ks' q q' r Hm Hm' Hr).
  pose proof (st_same _ _ _ S1) as B1. pose proof (st_same _ _ _ S2) as B2. rewrite (sb0_rest _ _ B1), (sb0_rest _ _ B2). f_equal. apply nth_ext_N. intros n.
  destruct (nth_error (p0_inputs p1) (N.to_nat n)) as [i1|] eqn:Ei.
  - destruct (spend_at_nth p1 n i1 Hone Ei) as [ti Hs]. destruct (Hall n ti i1 Hs) as (i & d & Hup & Hun & ((k & Hk & Hsg) & Hev) & ((k' & Hk' & Hsg') & Hev')).
    assert (Hev2 : forall k, In k (ks ++ ks') -> signable k d \/ unable k d) by (intros a Ha; apply in_app_or in Ha as [Ha|Ha]; auto).
    destruct (sign0_ok k p1 Hb) as (p2 & used & errs & Hp). destruct (sign0_ok k' p1 Hb) as (p2' & used' & errs' & Hp').
    rewrite (team_input p1 ks q k p2 used errs n ti i i1 d W1 T1 Hm Hk Hp Hs Hup Hun Hsg Hev).
    rewrite (team_input p1 ks' q' k' p2' used' errs' n ti i i1 d W1 T2 Hm' Hk' Hp' Hs Hup Hun Hsg' Hev').
    rewrite <- (team_input p1 (ks ++ ks') r k p2 used errs n ti i i1 d W1 Ht Hmr ltac:(apply in_or_app; auto) Hp Hs Hup Hun Hsg Hev2).
    exact (team_input p1 (ks ++ ks') r k' p2' used' errs' n ti i i1 d W1 Ht Hmr ltac:(apply in_or_app; auto) Hp' Hs Hup Hun Hsg' Hev2).
  - apply nth_error_None in Ei. rewrite !(proj2 (nth_error_None _ _)); [reflexivity|rewrite (same_signed0_len _ _ B2); lia|rewrite (same_signed0_len _ _ B1); lia].
Qed.

Lemma signed_wf p q : same_but_signed0 p q -> wf_psbt0 p -> Forall wf_input0 (p0_inputs q) -> wf_psbt0 q.
Proof.
  intros H W Hi. pose proof (same_signed0_len _ _ H) as El. rewrite (sb0_rest _ _ H) in *. destruct W. destruct p. constructor; cbn in *; auto. congruence.
Qed.

(** The updated PSBT. *)
Lemma team_start ks l p p1 :
  wf_psbt0 p -> Forall untouched (p0_inputs p) -> NoDup (map fst l) -> (forall n, n < blen (p0_inputs p) -> In n (map fst l)) ->
  (forall n d, In (n, d) l -> exists d', derives d d' /\ sound d' /\ team_for ks d') ->
  updates l p p1 ->
  wf_psbt0 p1 /\ p0_unsigned_tx p1 = p0_unsigned_tx p /\ updated_at l p p1 /\ (exists us, spent_outputs p1 us)
  /\ (forall n ti i1, spend_at p1 n (ti, i1) -> exists d i d', In (n, d) l /\ spend_at p n (ti, i) /\ derives d d' /\ input_updated d' i i1)
  /\ forall k, no_old_signature0 k p1.
Proof.
  intros W Hun Hnd Hall Hd Hup.
  destruct (workflow_start l p p1 W Hun Hnd Hall) as (W1 & Etx & Hat & us & Hus); [|exact Hup|].
  { intros n d Hin. destruct (Hd n d Hin) as (d' & H1 & H2 & ((k & _ & H3) & _)). exists d'. split; [exact H1|]. split; [exact H2|]. exact (signable_plain k d' H3). }
  split; [exact W1|]. split; [exact Etx|]. split; [exact Hat|]. split; [eauto|].
  assert (Hlen : length (p0_inputs p1) = length (p0_inputs p)) by (rewrite (wp0_input_count _ W1), (wp0_input_count _ W), Etx; reflexivity).
  assert (Hin1 : forall n ti i1, spend_at p1 n (ti, i1) -> exists d i d', In (n, d) l /\ spend_at p n (ti, i) /\ derives d d' /\ input_updated d' i i1).
  { intros n t i1 Hs. assert (Hs0 : exists s0, spend_at p n s0).
    { apply spend_of; [exact (wp0_input_count _ W)|]. pose proof (spend_at_lt _ _ _ Hs) as [G _]. unfold blen in *. lia. }
    destruct Hs0 as [s0 Hs0]. destruct (named l p n s0 Hall Hs0) as [d Hin]. destruct (Hat n d Hin) as (ti & i & i' & u & d' & Hs' & Hs1 & Hder & _ & _ & Hi).
    pose proof (spend_at_fun _ _ _ _ Hs Hs1) as E. injection E as -> ->. eauto 8. }
  split; [exact Hin1|]. intros k n [t i1] sks m ty pk g Hs _ _ _ Hg. exfalso. destruct (Hin1 n t i1 Hs) as (d & i & d' & _ & Hs' & _ & Hi).
  cbn [snd] in Hg. rewrite (kp_sigs _ _ (updated_kept _ _ _ Hi)) in Hg. rewrite Forall_forall in Hun.
  destruct (Hun i) as [E _]; [apply spend_at_iff in Hs' as [_ Hs']; eapply nth_error_In; exact Hs'|]. rewrite E in Hg. discriminate.
Qed.

(** The whole way with several signers. *)
Lemma team_workflow {LS : SignLaws X S} mall ks l p p1 p2 :
  wf_psbt0 p -> Forall untouched (p0_inputs p) -> NoDup (map fst l) -> (forall n, n < blen (p0_inputs p) -> In n (map fst l)) ->
  (forall n d, In (n, d) l -> exists d', derives d d' /\ sound d' /\ team_for ks d' /\
     forall ti i, spend_at p n (ti, i) -> typed_for (p0_unsigned_tx p) n d' i) ->
  updates l p p1 -> (forall k k', In k ks -> In k' ks -> in_agreement p1 k k') -> made p1 ks p2 ->
  exists p3 t us, finalize_any mall p2 = Ok (p3, []) /\ extract_checked p3 = Ok t /\ wf_psbt0 p1 /\ wf_psbt0 p2 /\ wf_psbt0 p3
    /\ strip_signatures t = p0_unsigned_tx p /\ spent_outputs p us
    /\ (forall n d d' ti, In (n, d) l -> derives d d' -> nth_error (tx_input t) (N.to_nat n) = Some ti ->
         exists s u, spend_at p n s /\ spent_output s u /\ to_script u = spk_of d'
           /\ valid_spend (p0_unsigned_tx p) n us u (snd s) d' (ti_script_sig ti) (ti_witness ti)).
Proof.
  intros W Hun Hnd Hall Hd Hup Hag Hm.
  destruct (team_start ks l p p1 W Hun Hnd Hall) as (W1 & Etx & Hat & (us & Hus) & _ & Hfresh); [|exact Hup|].
  { intros n d Hin. destruct (Hd n d Hin) as (d' & H1 & H2 & H3 & _). eauto. }
  assert (Hlen : length (p0_inputs p1) = length (p0_inputs p)) by (rewrite (wp0_input_count _ W1), (wp0_input_count _ W), Etx; reflexivity).
  assert (Hui : forall n ti i, spend_at p n (ti, i) -> untouched i).
  { intros n ti i Hs. rewrite Forall_forall in Hun. apply Hun. apply spend_at_iff in Hs as [_ Hs]. eapply nth_error_In. exact Hs. }
  assert (Ht : team p1 ks) by (split; [exact Hag|]; intros k _; apply Hfresh).
  pose proof (wf_sorted0 p1 W1) as Hso. pose proof (wp0_input_count _ W1) as Hone. pose proof (st_same _ _ _ (made_state p1 ks p2 Hso Hone Ht Hm)) as Hsb.
  assert (Etx2 : p0_unsigned_tx p2 = p0_unsigned_tx p1) by (rewrite (sb0_rest _ _ Hsb); reflexivity).
  assert (Hstep : forall n d, In (n, d) l -> exists ti i i2 u d', (spend_at p n (ti, i) /\ spend_at p2 n (ti, i2)
    /\ derives d d' /\ spent_output (ti, i) u /\ funds0 (ti, i2) u /\ to_script u = spk_of d' /\ spent_by mall (p0_unsigned_tx p1) n us i i2 ti u d') /\ wf_input0 i2).
  { intros n d Hin. destruct (Hat n d Hin) as (ti & i & i1 & u & d' & Hs & Hs1 & Hder & Hu & Eu & Hi).
    destruct (Hd n d Hin) as (d'' & H1 & H2 & ((k0 & Hk0 & H3) & Hev) & H4). pose proof (derives_fun _ _ _ H1 Hder) as ->.
    destruct (psbt0_sign k0 p1) as [[[p' used] errs]|[]|] eqn:Hsign; [|exfalso; apply (C48_sign_panic_iff X S T) in Hsign; exact (oob_spent p1 us Hsign Hus)].
    pose proof (C60_v0_wf X S T LS LT k0 p1 p' used errs Hsign W1) as W'.
    assert (Hf1 : funds0 (ti, i1) u) by (apply (kept_funds i i1 ti u (updated_kept _ _ _ Hi)); eapply spendable_funds; exact Hu).
    pose proof (Hui n ti i Hs) as Hun'.
    assert (Hty : typed_for (p0_unsigned_tx p1) n d' i) by (rewrite Etx; eapply H4; exact Hs).
    destruct (signed_ready mall k0 p1 p' used errs us n ti i i1 d' u W1 Hsign W' Hs1 Hi Hun' H3 Hf1 Eu Hty Hus) as (_ & i2 & Hi2 & Hsu & Hsp).
    pose proof (team_input p1 ks p2 k0 p' used errs n ti i i1 d' W1 Ht Hm Hk0 Hsign Hs1 Hi Hun' H3 Hev) as E. rewrite Hi2 in E.
    exists ti, i, i2, u, d'. split.
    - split; [exact Hs|]. split; [apply spend_at_iff in Hs1 as [A _]; apply spend_at_iff; rewrite Etx2; auto|].
      split; [exact Hder|]. split; [exact (proj1 Hu)|]. split; [now apply (same_utxos_funds ti i1 i2 u Hsu)|]. auto.
    - pose proof (wp0_inputs _ W') as G. rewrite Forall_forall in G. apply G. eapply nth_error_In. exact Hi2. }
  assert (W2 : wf_psbt0 p2).
  { apply (signed_wf p1 p2 Hsb W1). apply Forall_forall. intros j Hj. apply In_nth_error in Hj as [m Hj].
    assert (Hlt : (m < length (p0_inputs p2))%nat) by (apply nth_error_Some; congruence). rewrite (same_signed0_len _ _ Hsb), Hlen in Hlt.
    pose proof (Hall (N.of_nat m) ltac:(unfold blen; lia)) as Hin. apply in_map_iff in Hin as ([m' d] & E & Hin). cbn [fst] in E. subst m'.
    destruct (Hstep _ d Hin) as (ti & i & i2 & u & d' & (_ & Hs2 & _) & Wi). apply spend_at_iff in Hs2 as [_ Hs2]. rewrite Nat2N.id, Hj in Hs2.
    now injection Hs2 as ->. }
  destruct (workflow_end mall us l p p1 p2 W W1 W2 Hall Etx Hat Hus Hsb) as (p3 & t & H1 & H2 & H3 & H4).
  { intros n d Hin. destruct (Hstep n d Hin) as (ti & i & i2 & u & d' & H & _). exists ti, i, i2, u, d'. exact H. }
  exists p3, t, us. split; [exact H1|]. split; [exact H2|]. split; [exact W1|]. split; [exact W2|]. split; [exact H3|]. exact H4.
Qed.
End Team.
