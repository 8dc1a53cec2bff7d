(** Facts about the way from an unsigned transaction to a signed one. *)
From Coq Require Import Sorted.
From Verif Require Import Base OMap Consensus ConsensusFacts Ext Raw TapTree SpecCodec Serialize SerializeFacts MapCodec
  SpecPsbt SpecRoles V2Roles Script SighashType V2Sign SpecSign V2RolesFacts V2Finalize SpecFinalize V2SpendFacts
  V0Error V0Input V0Output V0Psbt SpecPsbt0 V0WireFacts SpecExtract0 V0ExtractFacts V0Sign SpecSign0 V0SignFacts V0SignResultFacts
  V0Finalize SpecFinalize0 V0FinalizeFacts V0SpendFacts V0Update SpecUpdate0 V0UpdateFacts V0UpdateItemFacts V0UpdatePsbtFacts V0UpdateSignFacts
  V2SignFacts V2SignFacts SpecWorkflow0 UpdateWfFacts PropertiesV0Sign PropertiesV0Finalize PropertiesV0Extractor PropertiesV0Spend PropertiesV0UpdateSign.
Local Open Scope N_scope.

(** ** Updates *)
Section Updates.
Context `{X : Ext} {L : ExtLaws X} `{T : SchnorrExt} {LD : DescLaws T} `{D : DescExt}.

Lemma ser_keysource_blen src : length (ks_fp src) = 4%nat -> blen (ser_keysource src) = 4 + 4 * blen (ks_path src).
Proof.
  intros H. unfold ser_keysource. rewrite blen_app, (enc_all_len enc_u32 4 (ks_path src)) by (apply Forall_forall; intros; reflexivity).
  unfold blen. rewrite H. lia.
Qed.
Lemma update_tr_wf n d k p p' ti i : wf_psbt0 p -> update_input n d p = (p', Ok tt) -> derives d (DscTr k None) -> sound (DscTr k None) ->
  spend_at p n (ti, i) -> i0_tap_key_origins i = [] -> wf_psbt0 p'.
Proof.
  intros W H Hd Hso Hs Ho. destruct (update_input_after n d p p' H) as (t0 & i0 & i1 & u & d0 & Hs0 & Hs1 & Hd0 & Hu & Eu & Hup & Hrep & Etx & Hso1).
  pose proof (derives_fun _ _ _ Hd0 Hd) as ->. pose proof (spend_at_fun _ _ _ _ Hs0 Hs) as E. injection E as -> ->.
  pose proof (proj2 (replaced_nth _ _ _ _ _ Hrep)) as Hi1.
  apply (update_input_wf n d _ p p' i1 W H Hd Hso Hi1).
  assert (Hsi : sorted_origins i) by (unfold sorted_origins; rewrite Ho; constructor). specialize (Hso1 Hsi).
  destruct Hup as [ders Ht _|ik tree o sc E Hor _]; [destruct Ht; do 2 eexists; reflexivity|]. injection E as <- <-. rewrite Ho in Hor.
  cbn in Hso1 |- *. unfold origins_fit. apply Forall_forall. intros [x [hs src]] Hin. apply (m_in_get bkey x (hs, src)) in Hin; [|exact Hso1].
  apply (proj1 (Hor _ _)) in Hin. destruct Hso as [Hk _]. pose proof (Forall_inv Hk) as (_ & _ & Hks & _ & Hmax). unfold origin_size. cbn [fst snd].
  inversion Hin as [hs' Ex Ha Hh E2|hs0 hs' src' Hx Hg|hs' src' Hx _ _ _ (l1 & k' & l2 & E3 & _)]; subst.
  - destruct hs as [|h hs]; [|exfalso; destruct (proj1 (Hh h) (or_introl eq_refl)) as (l & k' & [] & _)].
    cbn [ks_path] in *. assert (Eb : blen (ser_keysource (snd k)) = 4 + 4 * blen (ks_path (snd k))) by (now apply ser_keysource_blen).
    rewrite Eb in Hmax. change (blen (@nil bytes)) with 0. change (varint_size 0) with 1. unfold MAX_VALUE in *. lia.
  - discriminate Hg.
  - destruct l1; discriminate E3.
Qed.

Lemma updates_at l p p' : updates l p p' -> NoDup (map fst l) ->
  p0_unsigned_tx p' = p0_unsigned_tx p
  /\ (forall n, ~ In n (map fst l) -> nth_error (p0_inputs p') (N.to_nat n) = nth_error (p0_inputs p) (N.to_nat n))
  /\ forall n d, In (n, d) l -> exists ti i i' u d', spend_at p n (ti, i) /\ spend_at p' n (ti, i') /\ derives d d' /\ spendable d (ti, i) u
       /\ to_script u = spk_of d' /\ input_updated d' i i'.
Proof.
  intros H. induction H as [p|n d l p p1 p2 H Hl IH]; intros Hnd.
  - split; [reflexivity|]. split; [reflexivity|]. intros n d [].
  - cbn [map fst] in Hnd. apply NoDup_cons_iff in Hnd as [Hn Hnd]. destruct (IH Hnd) as (Etx & Hsame & Hat).
    destruct (update_input_after n d p p1 H) as (t0 & i0 & i1 & u & d0 & Hs0 & Hs1 & Hd0 & Hu & Eu & Hup & Hrep & Etx1 & _).
    split; [congruence|]. split.
    + intros m Hm. cbn [map fst In] in Hm. rewrite Hsame by tauto. apply (replaced_other _ _ _ _ _ m Hrep). intros ->. tauto.
    + intros m d1 [E|Hin].
      * injection E as <- <-. exists t0, i0, i1, u, d0. split; [exact Hs0|]. split; [|auto].
        apply spend_at_iff in Hs1 as [A B]. apply spend_at_iff. rewrite Etx, Hsame by exact Hn. auto.
      * destruct (Hat m d1 Hin) as (ti & i & i' & u' & d' & G1 & G2 & G3 & G4 & G5 & G6). exists ti, i, i', u', d'. split; [|auto 6].
        apply spend_at_iff in G1 as [A B]. apply spend_at_iff. rewrite Etx1 in A. split; [exact A|].
        rewrite (replaced_other _ _ _ _ _ m Hrep) in B; [exact B|]. intros ->. apply Hn. apply (in_map fst) in Hin. exact Hin.
Qed.

Lemma updates_wf l p p' : updates l p p' -> NoDup (map fst l) -> wf_psbt0 p ->
  Forall (fun i => i0_tap_key_origins i = []) (p0_inputs p) ->
  (forall n d, In (n, d) l -> exists d', derives d d' /\ sound d' /\ (~ taproot d' \/ exists k, d' = DscTr k None)) -> wf_psbt0 p'.
Proof.
  intros H Hnd W Ho Hd.
  assert (G : (forall n i, In n (map fst l) -> nth_error (p0_inputs p) (N.to_nat n) = Some i -> i0_tap_key_origins i = [])).
  { intros n i _ Hi. rewrite Forall_forall in Ho. apply Ho. eapply nth_error_In; exact Hi. }
  clear Ho. induction H as [p|n d l p p1 p2 H Hl IH]; [exact W|].
  cbn [map fst] in Hnd, G. apply NoDup_cons_iff in Hnd as [Hn Hnd].
  destruct (update_input_after n d p p1 H) as (t0 & i0 & i1 & u & d0 & Hs0 & Hs1 & Hd0 & Hu & Eu & Hup & Hrep & Etx1 & _).
  apply IH; [exact Hnd| |intros m dm Hm; apply (Hd m dm); now right|].
  - destruct (Hd n d (or_introl eq_refl)) as (d' & Hd' & Hso & [Ht|[k ->]]).
    + exact (update_input_plain_wf n d d' p p1 W Hd' Hso Ht H).
    + apply (update_tr_wf n d k p p1 t0 i0 W H Hd' Hso Hs0). apply (G n i0); [now left|]. now apply spend_at_iff in Hs0 as [_ Hi].
  - intros m i Hm Hi. apply (G m i); [now right|]. rewrite (replaced_other _ _ _ _ _ m Hrep) in Hi; [exact Hi|]. intros ->. contradiction.
Qed.

End Updates.

(** ** Signing *)
Section Signing.
Context `{X : Ext} {L : ExtLaws X} `{S : SignExt} {LS : SignLaws X S} `{T : SchnorrExt} {LD : DescLaws T} {LT : SchnorrLaws S T} `{D : DescExt}.

Lemma single_proper d k : single d k -> proper d /\ ~ taproot d /\ all_keys d = [k].
Proof.
  intros [->|[[->| ->] _]]; cbn [proper all_keys]; (split; [auto|]); (split; [intros (k' & t & E); discriminate E|reflexivity]).
Qed.
Lemma has_key_fun (prov : provider) pk src a b : has_key prov pk src a -> has_key prov pk src b -> a = b.
Proof. intros [H|[H1 H2]] [G|[G1 G2]]; congruence. Qed.
Lemma keys_one (prov : provider) pk src sk sks : has_key prov pk src sk -> keys_for prov [(pk, src)] sks -> sks = [sk].
Proof.
  intros H K. inversion K as [|pk' src' l sk' sks' Hk Hn E1 E2|pk' src' l sks' Hno Hn E1 E2]; subst.
  - inversion Hn; subst. now rewrite (has_key_fun prov pk src sk sk' H Hk).
  - destruct (Hno sk H).
Qed.
Lemma only_one {K V} (sk : K -> list N) (inj : forall a b, sk a = sk b -> a = b) (m : list (K * V)) k v :
  m_sorted sk m -> (forall k' v', m_get sk k' m = Some v' <-> k' = k /\ v' = v) -> m = [(k, v)].
Proof.
  intros Hs H. apply (m_ext sk inj); [exact Hs|repeat constructor|]. intros k'. apply some_iff_eq. intros g. rewrite (H k' g). split.
  - intros [-> ->]. exact (m_get_put_eq sk inj k v []).
  - intros G. apply (m_get_in sk inj) in G as [E|[]]. now injection E as <- <-.
Qed.
Lemma sources_one k ders : m_sorted bkey ders -> sources_after [k] [] ders -> ders = [(pub_inner (fst k), snd k)].
Proof.
  intros Hs H. apply (only_one bkey bkey_inj); [exact Hs|]. intros pk src. rewrite (H pk src). split.
  - intros [(l1 & k' & l2 & E & <- & <- & _)|[_ G]]; [|discriminate G]. destruct l1 as [|? [|? ?]]; try discriminate E. now injection E as <- <-.
  - intros [-> ->]. left. exists [], k, []. split; [reflexivity|]. split; [reflexivity|]. split; [reflexivity|]. intros ? [].
Qed.

(** The one signature of an input of a single key. *)
Lemma signed_ecdsa prov p p' used errs n ti i i1 d k sk u ty :
  wf_psbt0 p -> psbt0_sign prov p = Ok (p', used, errs) -> spend_at p n (ti, i1) -> input_updated d i i1 -> untouched i ->
  single d k -> has_key prov (pub_inner (fst k)) (snd k) sk -> public_of sk = fst k -> funds0 (ti, i1) u -> to_script u = spk_of d -> type_of_input0 i ty ->
  exists i2 sg, nth_error (p0_inputs p') (N.to_nat n) = Some i2 /\ i0_partial_sigs i2 = [(fst k, ESig sg ty)]
    /\ i0_redeem_script i2 = i0_redeem_script i1 /\ same_utxos i1 i2
    /\ sg = sign_ecdsa (digest_for d (p0_unsigned_tx p) n (to_value u) ty) (pv_secret sk) /\ (forall e, ~ In (n, e) errs).
Proof.
  intros W Hsign Hs Hup (Hps & Hbd & _) Hd Hk Hpub Hf Eu Hty. destruct (single_proper d k Hd) as (Hp & Ht & Hall).
  assert (Wl : forall i, In i (p0_inputs p) -> wf_input0 i) by (pose proof (wp0_inputs _ W) as G; now rewrite Forall_forall in G).
  assert (Hsorted : Forall sorted_origins (p0_inputs p)) by (apply Forall_forall; intros j Hj; apply (wi0_tap_key_origins _ (Wl j Hj))).
  assert (W1 : wf_input0 i1) by (apply Wl; apply spend_at_iff in Hs as [_ Hs]; eapply nth_error_In; exact Hs).
  destruct (C81_signed X S T prov p p' used errs Hsign Hsorted) as [_ Hat]. destruct (Hat n (ti, i1) Hs) as (i2 & r & Hi2 & Hsig & Hused & Herr).
  pose proof (updated_kept _ _ _ Hup) as Hkept. destruct (updated_scripts _ _ _ Hup) as [Er Ew].
  assert (Er' : forall c, redeem_of d = Some c -> i0_redeem_script i1 = Some c) by (intros c E; now rewrite Er, E).
  assert (Ew' : forall c, witness_of d = Some c -> i0_witness_script i1 = Some c) by (intros c E; now rewrite Ew, E).
  assert (Hkind : spends_kind (ti, i1) (kind_for d)) by (exists u; split; [exact Hf|]; rewrite Eu; apply desc_kind; auto).
  assert (He : spends_ecdsa (ti, i1)).
  { exists (kind_for d). split; [exact Hkind|]. destruct d; try discriminate. destruct Ht. do 2 eexists. reflexivity. }
  assert (Hm : to_sign0 p (p0_unsigned_tx p) n (digest_for d (p0_unsigned_tx p) n (to_value u) ty) ty).
  { exists (ti, i1), u. split; [exact Hs|]. split; [exact Hf|]. split; [apply (kept_type i i1 ty Hkept); exact Hty|]. apply desc_message; auto. }
  assert (Eders : i0_bip32_derivation i1 = [(pub_inner (fst k), snd k)]).
  { pose proof (wi0_bip32 _ W1) as [Hso _]. destruct Hup as [ders _ Hders|ik tree o sc E _ _]; [|destruct Ht; do 2 eexists; exact E].
    rewrite Hall, Hbd in Hders. cbn in Hso |- *. now apply sources_one. }
  assert (Esigs : i0_partial_sigs i1 = []) by now rewrite (kp_sigs _ _ Hkept).
  pose proof (spend_at_lt _ _ _ Hs) as [_ Hlt].
  destruct Hsig as [sks m ty' new _ Hkeys Hm' Hnew|_ Hkeys|sks _ Hkeys Hne Hno|j xs Htap _ _ _|leaf x sk' Htap _ _|Hno _]; cbn [snd] in *.
  - destruct (to_sign0_fun p _ n _ _ _ _ Hlt Hm Hm') as [<- <-]. rewrite Eders in Hkeys. pose proof (keys_one prov _ _ sk sks Hk Hkeys) as ->.
    eexists. eexists. split; [exact Hi2|]. split; [|split; [now destruct i1|split; [now destruct i1|split; [reflexivity|]]]].
    + assert (W2 : wf_input0 (set_i0_partial_sigs new i1)).
      { pose proof (wp0_inputs _ (C60_v0_wf X S T LS LT prov p p' used errs Hsign W)) as G. rewrite Forall_forall in G. apply G. eapply nth_error_In. exact Hi2. }
      pose proof (wi0_partial_sigs _ W2) as [Hso _]. cbn in Hso |- *. apply (only_one sk_pubkey sk_pubkey_inj); [exact Hso|]. intros pk s. rewrite (Hnew pk s), Esigs.
      split.
      * intros [(l1 & sk' & l2 & E & <- & _ & ->)|[_ E]]; [|discriminate E]. destruct l1 as [|? [|? ?]]; try discriminate E. injection E as <- <-. auto.
      * intros [-> ->]. left. exists [], sk, []. split; [reflexivity|]. split; [exact Hpub|]. split; [intros []|reflexivity].
    + intros e Hbad. assert (Hx : Some (KeysEcdsa (map public_of [sk])) = None) by (apply Herr; eauto). discriminate.
  - rewrite Eders in Hkeys. pose proof (keys_one prov _ _ sk [] Hk Hkeys). discriminate.
  - destruct (Hno _ _ Hm).
  - exfalso. eapply ecdsa_not_taproot; eassumption.
  - exfalso. eapply ecdsa_not_taproot; eassumption.
  - contradiction.
Qed.

(** The one signature of a taproot input. *)
Lemma signed_taproot prov p p' used errs us n ti i i1 k sk u ty :
  wf_psbt0 p -> psbt0_sign prov p = Ok (p', used, errs) -> spend_at p n (ti, i1) -> input_updated (DscTr k None) i i1 -> untouched i ->
  prov (KRBip32 (snd k)) = inr (Some sk) -> x_public sk = x_of k -> funds0 (ti, i1) u -> to_script u = spk_of (DscTr k None) ->
  taproot_type_of_input i ty -> (In ty [0x03; 0x83] -> n < blen (tx_output (p0_unsigned_tx p))) -> spent_outputs p us ->
  exists i2 sg, nth_error (p0_inputs p') (N.to_nat n) = Some i2 /\ i0_tap_key_sig i2 = Some (TSig sg ty) /\ same_utxos i1 i2
    /\ sg = sign_schnorr (key_message (p0_unsigned_tx p) n us u ty) (tweak_secret (pv_secret sk) None) /\ (forall e, ~ In (n, e) errs).
Proof.
  intros W Hsign Hs Hup (_ & _ & Hks & Hor) Hk Hpub Hf Eu Hty Hsingle Hus.
  assert (Wl : forall i, In i (p0_inputs p) -> wf_input0 i) by (pose proof (wp0_inputs _ W) as G; now rewrite Forall_forall in G).
  assert (Hsorted : Forall sorted_origins (p0_inputs p)) by (apply Forall_forall; intros j Hj; apply (wi0_tap_key_origins _ (Wl j Hj))).
  destruct (C81_signed X S T prov p p' used errs Hsign Hsorted) as [_ Hat]. destruct (Hat n (ti, i1) Hs) as (i2 & r & Hi2 & Hsig & Hused & Herr).
  pose proof (updated_kept _ _ _ Hup) as Hkept.
  assert (Hwant : wanted prov i1 None (x_of k) sk /\ i0_tap_merkle_root i1 = None).
  { pose proof (kp_key_sig _ _ Hkept) as Eks. destruct Hup as [ders Ht _|ik' tree' o sc E Ho _]; [destruct Ht; do 2 eexists; reflexivity|]. injection E as <- <-.
    split; [|reflexivity]. apply (WantKey prov _ (x_of k) (snd k) sk); [|reflexivity|now rewrite Eks, Hks|exact Hk].
    apply (m_get_in bkey bkey_inj). cbn. apply (proj2 (Ho _ _)). apply OriginInternal; [reflexivity|constructor|].
    intros h. split; [intros []|intros (l & k' & [] & _)]. }
  destruct Hwant as [Hwant Eroot].
  assert (Hkey : p2tr_key (to_script u) (output_key (x_of k) None)) by (rewrite Eu; apply tr_key).
  assert (Htap : spends_taproot (ti, i1)) by (exists u, (output_key (x_of k) None); auto).
  assert (Hty1 : taproot_type_of_input i1 ty) by (apply (kept_tap_type i i1 ty Hkept); exact Hty).
  assert (Hm : taproot_to_sign p n None (key_message (p0_unsigned_tx p) n us u ty) ty).
  { exists (ti, i1), u. split; [exact Hs|]. split; [exact Hf|]. split; [eauto|]. split; [exact Hty1|]. split; [exact Hsingle|].
    destruct Hty as [Hin _]. unfold key_message. cbn [In] in Hin. destruct (N.ltb_spec 0x80 ty) as [Hlt|Hlt]; [left|right].
    - split; [cbn [In]; lia|reflexivity].
    - split; [cbn [In]; lia|]. split; [exact (wp0_input_count _ W)|]. exists us. auto. }
  pose proof (sign0_bounds prov p _ Hsign) as Hb.
  destruct Hsig as [sks m ty' new He _ _ _|He _|sks He _ _ _|j xs _ _ [Hrest Hkeysig _] _|leaf x sk' _ Hwl Hno|_ Hno]; cbn [snd] in *;
    try (exfalso; eapply ecdsa_not_taproot; eassumption).
  - exists j. eexists. split; [exact Hi2|]. split; [|split; [rewrite Hrest; now destruct i1|split; [reflexivity|]]].
    + apply Hkeysig. right. exists (x_of k), sk, (key_message (p0_unsigned_tx p) n us u ty), ty. split; [exact Hwant|]. split; [exact Hm|]. now rewrite Eroot.
    + intros e Hbad. assert (Hx : Some (KeysSchnorr xs) = None) by (apply Herr; eauto). discriminate.
  - exfalso. inversion Hwl as [x' src' sk'' W1 W2 W3 W4|x' lhs src' sk'' lh W1 W2 W3 W4]; subst.
    + exact (Hno _ _ Hm).
    + destruct (origins_pre i1) as [_ Hg]; [apply (wi0_tap_key_origins i1); apply Wl; apply spend_at_iff in Hs as [_ Hs]; eapply nth_error_In; exact Hs|].
      apply Hg in W1. destruct Hup as [ders Ht _|ik' tree' o sc E Ho _]; [destruct Ht; do 2 eexists; reflexivity|]. injection E as <- <-. rewrite Hor in Ho.
      apply (proj1 (Ho _ _)) in W1. inversion W1 as [hs Ex Ha Hh|hs0 hs src0 Hx G|hs src0 Hx G Ha Hh _]; subst; try discriminate G.
      * destruct (proj1 (Hh lh) W2) as (l & k' & [] & _).
      * destruct (proj1 (Hh lh) W2) as (l & k' & [] & _).
  - contradiction.
Qed.

End Signing.

(** ** Finalizing *)
Section Final.
Context `{X : Ext} {L : ExtLaws X} `{S : SignExt} `{T : SchnorrExt} {LD : DescLaws T} {LT : SchnorrLaws S T} `{D : DescExt}
  `{M : MsExt} `{NM : !MsNmExt M} {ML : MsLaws X M} {NL : MsNmLaws M NM} {KL : KeySpendLaws X S T M}.

Lemma single_spend d k s : single d k -> exists ss w, key_spend (fst k) s (spk_of d) ss w.
Proof.
  intros [->|[[->| ->] Hc]]; cbn [spk_of].
  - do 2 eexists. apply KSPkh. reflexivity.
  - do 2 eexists. now apply KSWpkh.
  - do 2 eexists. now apply KSShWpkh.
Qed.
Lemma single_script d k r : single d k -> (forall c, redeem_of d = Some c -> r = Some c) -> single_key r (spk_of d).
Proof.
  intros [->|[[->| ->] Hc]] Hr; cbn [spk_of redeem_of] in *.
  - apply SKPkh. apply hash160_length.
  - apply SKWpkh. apply hash160_length.
  - eapply SKShWpkh; [apply hash160_length|now apply Hr|apply hash160_length].
Qed.

Lemma ready_ecdsa mall q n ti i d k sg ty u :
  wf_input0 i -> spend_at q n (ti, i) -> funds0 (ti, i) u -> to_script u = spk_of d -> single d k ->
  i0_partial_sigs i = [(fst k, ESig sg ty)] -> (forall c, redeem_of d = Some c -> i0_redeem_script i = Some c) -> (4 < length sg)%nat ->
  exists w ss, built mall q n w ss /\ key_spend (fst k) (ESig sg ty) (spk_of d) ss w.
Proof.
  intros W Hs Hf Eu Hd Hsig Hr Hl. destruct (single_spend d k (ESig sg ty) Hd) as (ss0 & w0 & Hks).
  destruct (C67_v0_complete X L M NM mall q n ti i u (fst k) (ESig sg ty) ss0 w0 W Hs Hf) as (ss & w & Hb).
  - rewrite Hsig. now left.
  - now rewrite Eu.
  - rewrite Eu. intros Hp. destruct Hd as [->|[[->| ->] _]]; cbn [spk_of] in Hp.
    + destruct (p2pkh_not_p2sh _ Hp).
    + exfalso. destruct Hp as (h & Hh & E). discriminate E.
    + now apply Hr.
  - exists w, ss. split; [exact Hb|].
    destruct (C67_v0_sound X L M NM ML mall q n ti i u ss w W Hs Hf) as (k' & s' & Hin & Hk').
    + rewrite Eu. now apply (single_script d k).
    + rewrite Hsig. intros k' s' [E|[]]. injection E as <- <-. unfold ser_esig. rewrite app_length. cbn [es_der]. lia.
    + exact Hb.
    + rewrite Hsig in Hin. destruct Hin as [E|[]]. injection E as <- <-. now rewrite <- Eu.
Qed.
Lemma ready_taproot mall q n ti i g u x :
  spend_at q n (ti, i) -> funds0 (ti, i) u -> p2tr_key (to_script u) x -> i0_tap_key_sig i = Some g -> built mall q n [ser_tsig g] [].
Proof.
  intros Hs Hf Hk Hg. unfold built. rewrite (build_known mall q n (ti, i) u Hs Hf). unfold final0. cbv zeta. cbn [fst snd].
  assert (Ht : is_p2tr (to_script u) = true) by (apply is_p2tr_iff; eauto). unfold construct_tap_witness0. rewrite Ht. cbn [panic_unless bind].
  cbn [sat_tap_key psbt_input_satisfier]. rewrite Hg. reflexivity.
Qed.

Lemma stage_at p q n : length (p0_inputs q) = length (p0_inputs p) ->
  nth_error (p0_inputs (stage p q n)) (N.to_nat n) = nth_error (p0_inputs p) (N.to_nat n).
Proof.
  intros Hl. unfold stage. cbn [p0_inputs set_p0_inputs]. destruct (Nat.le_gt_cases (length (p0_inputs p)) (N.to_nat n)) as [Hk|Hk].
  - rewrite firstn_all2, skipn_all2, app_nil_r by lia. transitivity (@None input0); [|symmetry]; apply nth_error_None; lia.
  - rewrite nth_error_app2; rewrite firstn_length_le by lia; [|lia]. rewrite Nat.sub_diag.
    rewrite <- (firstn_skipn (N.to_nat n) (p0_inputs p)) at 2. rewrite nth_error_app2; rewrite firstn_length_le by lia; [|lia]. now rewrite Nat.sub_diag.
Qed.
Lemma stage_spend p q n s : length (p0_inputs q) = length (p0_inputs p) -> spend_at p n s -> spend_at (stage p q n) n s.
Proof.
  intros Hl. destruct s as [t i]. intros H. apply spend_at_iff in H as [A B]. apply spend_at_iff. split; [exact A|]. now rewrite stage_at.
Qed.
Lemma built_fun mall q n w ss w' ss' : built mall q n w ss -> built mall q n w' ss' -> w = w' /\ ss = ss'.
Proof. unfold built. intros A B. rewrite A in B. injection B. auto. Qed.

(** If for every input something is built wherever it stands, and the interpreter accepts it, all
    is finalized. *)
Lemma finalize_ok mall p : one_map_per_input p -> (exists us, spent_outputs p us) ->
  (forall q n s, spend_at p n s -> spend_at q n s -> p0_unsigned_tx q = p0_unsigned_tx p -> exists w ss, built mall q n w ss /\ accepted p n w ss) ->
  exists q, finalize_any mall p = Ok (q, []).
Proof.
  intros Hone (us & Hus) H.
  destruct (finalize_any mall p) as [[q errs]|e|] eqn:E.
  - exists q. destruct (C52_v0_result X M NM mall p q errs Hone E) as (Hq & Hl & Hat & l & -> & _ & Hin). destruct l as [|[n e] l]; [reflexivity|exfalso].
    destruct (proj1 (Hin n e) (or_introl eq_refl)) as [Hn Hf]. destruct (spend_of p n Hone Hn) as [s Hs].
    pose proof (stage_spend p q n s Hl Hs) as Hs2. destruct (H (stage p q n) n s Hs Hs2 eq_refl) as (w & ss & Hb & Ha).
    apply (fails_not_done mall _ n e Hf). exists w, ss. split; [exact Hb|]. revert Ha. apply same_verdict. apply stage_funding; [exact Hq|].
    exact (result_utxos mall p q _ Hone E).
  - pose proof (finalize_any_steps mall p Hone) as G. now rewrite E in G.
  - exfalso. apply (C48_finalize_panic_iff X M NM mall p Hone) in E. exact (oob_spent p us E Hus).
Qed.

Lemma small_elements w : Forall (fun e => blen e <= 100) w -> wit_size w <= 109 * blen w /\ blen (enc_all enc_bytes w) = wit_size w.
Proof.
  intros H. induction H as [|a w Ha H [IH1 IH2]]; [split; [cbn; lia|reflexivity]|]. change (enc_all enc_bytes (a :: w)) with (enc_bytes a ++ enc_all enc_bytes w).
  cbn [wit_size]. rewrite blen_app, IH2. unfold enc_bytes. rewrite blen_app. fold (varint_size (blen a)). pose proof (varint_size_bounds (blen a)).
  unfold blen in *. cbn [length]. lia.
Qed.
Lemma small_witness w : (length w <= 2)%nat -> Forall (fun e => blen e <= 100) w -> wf_witness_v w.
Proof.
  intros Hl Hw. destruct (small_elements w Hw) as [H1 H2]. assert (blen w <= 2) by (unfold blen; lia).
  split; [unfold wf_witness, MAX_VEC_SIZE; lia|]. unfold enc_witness, enc_vec. rewrite blen_app, H2. fold (varint_size (blen w)).
  pose proof (varint_size_bounds (blen w)) as Hv. unfold varint_size, bytes in *. unfold MAX_VALUE. lia.
Qed.
Lemma key_spend_sizes k s spk ss w : wf_pubkey k -> wf_esig s -> key_spend k s spk ss w -> wf_value ss /\ wf_witness_v w.
Proof.
  intros Hk Hs H. pose proof (ser_pubkey_length k Hk) as Hlk. pose proof (ser_esig_length s Hs) as Hls.
  assert (Hw2 : wf_witness_v [ser_esig s; ser_pubkey k]).
  { apply small_witness; [cbn; lia|]. apply Forall_cons; [unfold blen; lia|]. apply Forall_cons; [unfold blen; lia|constructor]. }
  assert (Hw0 : wf_witness_v []) by (apply small_witness; [cbn; lia|constructor]).
  unfold wf_value, MAX_VALUE, blen. inversion H as [ss' E E1 E2 E3|ss' E E1 E2 E3|Hc E1 E2 E3|prog Hc Ep E1 E2 E3]; subst.
  - split; [|exact Hw0]. cbn [length]. lia.
  - split; [|exact Hw0]. rewrite app_length. cbn [length]. lia.
  - split; [cbn; lia|exact Hw2].
  - split; [|exact Hw2]. unfold program_script. cbn [length]. rewrite ?app_length, ?hash160_length. cbn [length]. lia.
Qed.

Lemma tap_spend_sizes g : wf_tsig g -> wf_value [] /\ wf_witness_v [ser_tsig g].
Proof.
  intros [Hl _]. split; [unfold wf_value, MAX_VALUE, blen; cbn [length]; lia|]. apply small_witness; [cbn; lia|]. apply Forall_cons; [|constructor].
  unfold ser_tsig, blen. destruct (ts_type g =? 0); rewrite ?app_length; cbn [length]; lia.
Qed.
Lemma all_funded l : (forall s, In s l -> exists u, funds0 s u) -> exists us, Forall2 funds0 l us.
Proof.
  induction l as [|s l IH]; intros H; [exists []; constructor|]. destruct IH as [us Hus]; [intros s' Hs'; apply H; now right|].
  destruct (H s (or_introl eq_refl)) as [u Hu]. exists (u :: us). now constructor.
Qed.
Lemma same_sigs_utxos i j : same_but_sigs0 i j -> same_utxos i j.
Proof. intros H. unfold same_but_sigs0 in H. rewrite H. destruct i. split; reflexivity. Qed.
Lemma same_sigs_all l l' : Forall2 same_but_sigs0 l l' -> Forall2 same_utxos l l'.
Proof. intros H. induction H; constructor; auto. now apply same_sigs_utxos. Qed.

(** What is known of a signed input: wherever it stands, a valid spend is built that the interpreter
    accepts. *)
Definition spent_by (mall : bool) (t : tx) (n : N) (us : list txout) (i i2 : input0) (ti : txin) (u : txout) (d : descr ddkey) : Prop :=
  forall q, p0_unsigned_tx q = t -> spend_at q n (ti, i2) ->
    exists w ss, built mall q n w ss /\ valid_spend t n us u i d ss w /\ wf_value ss /\ wf_witness_v w
      /\ ms_interpret (to_script u) ss w (ti_sequence ti) (tx_lock_time t) t n us = IOk.

Lemma signed_ready {LS : SignLaws X S} mall prov p1 p2 used errs us n ti i i1 d u :
  wf_psbt0 p1 -> psbt0_sign prov p1 = Ok (p2, used, errs) -> wf_psbt0 p2 -> spend_at p1 n (ti, i1) -> input_updated d i i1 -> untouched i ->
  signable prov d -> funds0 (ti, i1) u -> to_script u = spk_of d -> typed_for (p0_unsigned_tx p1) n d i -> spent_outputs p1 us ->
  (forall e, ~ In (n, e) errs)
  /\ exists i2, nth_error (p0_inputs p2) (N.to_nat n) = Some i2 /\ same_utxos i1 i2 /\ spent_by mall (p0_unsigned_tx p1) n us i i2 ti u d.
Proof.
  intros W1 Hsign W2 Hs Hup Hun Hsg Hf Eu Hty Hus.
  assert (Hin : n < blen (tx_input (p0_unsigned_tx p1))) by apply (spend_at_lt _ _ _ Hs).
  assert (Hlen : length us = length (tx_input (p0_unsigned_tx p1))).
  { rewrite <- (F2_length _ _ _ Hus), spends_length by exact (wp0_input_count _ W1). exact (wp0_input_count _ W1). }
  assert (Hnth : nth_error us (N.to_nat n) = Some u).
  { destruct (spent_at p1 us n _ Hus Hs) as (v & Hv & Hfv). now rewrite (funds0_fun _ _ _ Hf Hfv). }
  assert (Wl : forall i, In i (p0_inputs p2) -> wf_input0 i) by (pose proof (wp0_inputs _ W2) as G; now rewrite Forall_forall in G).
  destruct Hsg as [d k sk Hd Hk Hpub|k sk Hk Hpub].
  - assert (Hty' : exists ty, type_of_input0 i ty) by (destruct Hd as [->|[[->| ->] _]]; exact Hty). clear Hty. destruct Hty' as [ty Hty].
    destruct (signed_ecdsa prov p1 p2 used errs n ti i i1 d k sk u ty W1 Hsign Hs Hup Hun Hd Hk Hpub Hf Eu Hty) as (i2 & sg & Hi2 & Hps & Er & Hu2 & Esg & Herr).
    split; [exact Herr|]. exists i2. split; [exact Hi2|]. split; [exact Hu2|]. intros q Eq Hq.
    assert (Wi : wf_input0 i2) by (apply Wl; eapply nth_error_In; exact Hi2).
    assert (Hf2 : funds0 (ti, i2) u) by (now apply (same_utxos_funds ti i1 i2 u Hu2)).
    destruct (updated_scripts _ _ _ Hup) as [Er1 _].
    assert (Hr : forall c, redeem_of d = Some c -> i0_redeem_script i2 = Some c) by (intros c E; now rewrite Er, Er1, E).
    assert (Hl : (4 < length sg)%nat) by (rewrite Esg; apply sign_ecdsa_length).
    destruct (ready_ecdsa mall q n ti i2 d k sg ty u Wi Hq Hf2 Eu Hd Hps Hr Hl) as (w & ss & Hb & Hks).
    pose proof (wi0_partial_sigs _ Wi) as [_ Hwf]. rewrite Hps in Hwf. destruct (Forall_inv Hwf) as [Hwk Hws]. cbn [fst snd] in Hwk, Hws.
    assert (Hver : verify_ecdsa (pub_inner (fst k)) (digest_for d (p0_unsigned_tx p1) n (to_value u) ty) sg = true).
    { rewrite Esg, <- Hpub. cbn [public_of pub_inner]. apply sign_verifies. }
    destruct (key_spend_sizes _ _ _ _ _ Hwk Hws Hks) as [Hz1 Hz2].
    exists w, ss. split; [exact Hb|]. split; [exact (VEcdsa _ _ _ _ _ d k sg ty ss w Hd Hty Hks Hver)|]. split; [exact Hz1|]. split; [exact Hz2|].
    rewrite Eu. exact (interpret_key d k (ESig sg ty) ss w _ n us u _ _ Hd Hwk Hws Hks Hin Hlen Hnth Eu Hver).
  - cbn [typed_for] in Hty. destruct Hty as (ty & Hty & Hsingle).
    destruct (signed_taproot prov p1 p2 used errs us n ti i i1 k sk u ty W1 Hsign Hs Hup Hun Hk Hpub Hf Eu Hty Hsingle Hus) as (i2 & sg & Hi2 & Hks & Hu2 & Esg & Herr).
    split; [exact Herr|]. exists i2. split; [exact Hi2|]. split; [exact Hu2|]. intros q Eq Hq.
    assert (Wi : wf_input0 i2) by (apply Wl; eapply nth_error_In; exact Hi2).
    assert (Hf2 : funds0 (ti, i2) u) by (now apply (same_utxos_funds ti i1 i2 u Hu2)).
    assert (Hkey : p2tr_key (to_script u) (output_key (x_of k) None)) by (rewrite Eu; apply tr_key).
    pose proof (wi0_tap_key_sig _ Wi) as Hwf. rewrite Hks in Hwf. cbn [opt_of] in Hwf. destruct (tap_spend_sizes _ Hwf) as [Hz1 Hz2].
    assert (Hver : verify_schnorr (output_key (x_of k) None) (key_message (p0_unsigned_tx p1) n us u ty) sg = true).
    { rewrite Esg, <- Hpub. unfold x_public. rewrite <- tweak_secret_key. apply sign_schnorr_verifies. }
    exists [ser_tsig (TSig sg ty)], []. split; [exact (ready_taproot mall q n ti i2 _ u _ Hq Hf2 Hkey Hks)|].
    split; [exact (VTaproot _ _ _ _ _ k sg ty Hty Hver)|]. split; [exact Hz1|]. split; [exact Hz2|].
    exact (interpret_taproot _ (TSig sg ty) _ n us u _ _ Hwf Hin Hlen Hnth Hkey Hsingle Hver).
Qed.

Lemma built_spend mall q n w ss : built mall q n w ss -> exists s, spend_at q n s.
Proof.
  unfold built, build_final. intros H. destruct (get_scriptpubkey q n) as [spk|e|]; cbn [bind] in H; [|discriminate..].
  destruct (nth_N (p0_inputs q) n) as [i|] eqn:Ei; cbn [expect bind] in H; [|discriminate].
  destruct (nth_N (tx_input (p0_unsigned_tx q)) n) as [ti|] eqn:Et; cbn [expect bind] in H; [|discriminate].
  exists (ti, i). apply spend_at_iff. rewrite <- !nth_N_nth. auto.
Qed.
Lemma signable_plain prov d : signable prov d -> ~ taproot d \/ exists k, d = DscTr k None.
Proof.
  intros [d' k sk Hd _ _|k sk _ _]; [left; now apply (single_proper d' k)|right; eauto].
Qed.

Definition updated_at (l : list (N * descr dkey)) (p p1 : psbt0) : Prop :=
  forall n d, In (n, d) l -> exists ti i i' u d', spend_at p n (ti, i) /\ spend_at p1 n (ti, i') /\ derives d d' /\ spendable d (ti, i) u
       /\ to_script u = spk_of d' /\ input_updated d' i i'.
Lemma named l p n s : (forall n, n < blen (p0_inputs p) -> In n (map (@fst N (descr dkey)) l)) -> spend_at p n s -> exists d, In (n, d) l.
Proof.
  intros Hall Hs. pose proof (spend_at_lt _ _ _ Hs) as [Hn _]. pose proof (Hall n Hn) as Hin. apply in_map_iff in Hin as ([m d] & E & Hin). cbn [fst] in E. subst m. eauto.
Qed.
(** After the updates. *)
Lemma workflow_start l p p1 :
  wf_psbt0 p -> Forall untouched (p0_inputs p) -> NoDup (map fst l) -> (forall n, n < blen (p0_inputs p) -> In n (map fst l)) ->
  (forall n d, In (n, d) l -> exists d', derives d d' /\ sound d' /\ (~ taproot d' \/ exists k, d' = DscTr k None)) ->
  updates l p p1 ->
  wf_psbt0 p1 /\ p0_unsigned_tx p1 = p0_unsigned_tx p /\ updated_at l p p1 /\ exists us, spent_outputs p1 us.
Proof.
  intros W Hun Hnd Hall Hd Hup. rewrite Forall_forall in Hun.
  assert (Hor : Forall (fun i => i0_tap_key_origins i = []) (p0_inputs p)) by (apply Forall_forall; intros i Hi; apply (Hun i Hi)).
  assert (W1 : wf_psbt0 p1) by exact (updates_wf l p p1 Hup Hnd W Hor Hd).
  destruct (updates_at l p p1 Hup Hnd) as (Etx & Hout & Hat). split; [exact W1|]. split; [exact Etx|]. split; [exact Hat|].
  assert (Hlen : length (p0_inputs p1) = length (p0_inputs p)) by (rewrite (wp0_input_count _ W1), (wp0_input_count _ W), Etx; reflexivity).
  apply all_funded. intros s Hs. apply spend_at_in in Hs as [n Hs]. assert (Hs0 : exists s0, spend_at p n s0).
  { apply spend_of; [exact (wp0_input_count _ W)|]. pose proof (spend_at_lt _ _ _ Hs) as [G _]. unfold blen in *. lia. }
  destruct Hs0 as [s0 Hs0]. destruct (named l p n s0 Hall Hs0) as [d Hin]. destruct (Hat n d Hin) as (ti & i & i' & u & d' & _ & Hs1 & _ & Hu & _ & Hi).
  rewrite (spend_at_fun _ _ _ _ Hs Hs1). exists u. apply (kept_funds i i' ti u (updated_kept _ _ _ Hi)). eapply spendable_funds; exact Hu.
Qed.
(** After the signers. *)
Definition ready_at (mall : bool) (us : list txout) (l : list (N * descr dkey)) (p p1 p2 : psbt0) : Prop :=
  forall n d, In (n, d) l -> exists ti i i2 u d', spend_at p n (ti, i) /\ spend_at p2 n (ti, i2)
    /\ derives d d' /\ spent_output (ti, i) u /\ funds0 (ti, i2) u /\ to_script u = spk_of d'
    /\ spent_by mall (p0_unsigned_tx p1) n us i i2 ti u d'.
Lemma workflow_end mall us l p p1 p2 :
  wf_psbt0 p -> wf_psbt0 p1 -> wf_psbt0 p2 -> (forall n, n < blen (p0_inputs p) -> In n (map fst l)) ->
  p0_unsigned_tx p1 = p0_unsigned_tx p -> updated_at l p p1 -> spent_outputs p1 us -> same_but_signed0 p1 p2 -> ready_at mall us l p p1 p2 ->
  exists p3 t, finalize_any mall p2 = Ok (p3, []) /\ extract_checked p3 = Ok t
    /\ wf_psbt0 p3 /\ strip_signatures t = p0_unsigned_tx p /\ spent_outputs p us
    /\ forall n d d' ti, In (n, d) l -> derives d d' -> nth_error (tx_input t) (N.to_nat n) = Some ti ->
         exists s u, spend_at p n s /\ spent_output s u /\ to_script u = spk_of d'
           /\ valid_spend (p0_unsigned_tx p) n us u (snd s) d' (ti_script_sig ti) (ti_witness ti).
Proof.
  intros W W1 W2 Hall Etx Hat Hus Hsb Hstep.
  assert (Etx2 : p0_unsigned_tx p2 = p0_unsigned_tx p1) by (rewrite (sb0_rest _ _ Hsb); reflexivity).
  assert (Hlen : length (p0_inputs p1) = length (p0_inputs p)) by (rewrite (wp0_input_count _ W1), (wp0_input_count _ W), Etx; reflexivity).
  assert (Hfund12 : same_funding p1 p2).
  { split; [now symmetry|]. exact (same_sigs_all _ _ (sb0_inputs _ _ Hsb)). }
  assert (Hus2 : spent_outputs p2 us) by (now apply (same_spent p1 p2)).
  assert (Hnamed2 : forall n s, spend_at p2 n s -> exists d, In (n, d) l).
  { intros n s Hs. pose proof (spend_at_lt _ _ _ Hs) as [_ Hn]. rewrite Etx2, Etx in Hn. pose proof (wp0_input_count _ W) as Hc.
    assert (Hn0 : n < blen (p0_inputs p)) by (unfold blen in *; lia).
    pose proof (Hall n Hn0) as Hin. apply in_map_iff in Hin as ([m d] & E & Hin). cbn [fst] in E. subst m. eauto. }
  destruct (finalize_ok mall p2 (wp0_input_count _ W2) (ex_intro _ us Hus2)) as [p3 Hfin].
  { intros q n s Hs Hq Eq. destruct (Hnamed2 n s Hs) as [d Hin].
    destruct (Hstep n d Hin) as (ti & i & i2 & u & d' & _ & Hs2 & _ & _ & Hf2 & Eu & Hsp). pose proof (spend_at_fun _ _ _ _ Hs Hs2) as ->.
    rewrite Etx2 in Eq. destruct (Hsp q Eq Hq) as (w & ss & Hb & _ & _ & _ & Hint). exists w, ss. split; [exact Hb|].
    exists (ti, i2), u, us. split; [exact Hs2|]. split; [exact Hf2|]. split; [exact Hus2|]. rewrite Etx2. exact Hint. }
  assert (Hun2 : unsigned (p0_unsigned_tx p2)) by exact (wp0_unsigned _ W2).
  destruct (C28_v0 X M NM NL mall p2 p3 (wp0_input_count _ W2) Hun2 Hfin) as (_ & t & Ht).
  destruct (C71_v0 X M NM mall p2 p3 t (wp0_input_count _ W2) Hun2 Hfin Ht) as [Hstrip Hbuilt].
  destruct (C52_v0_result X M NM mall p2 p3 [] (wp0_input_count _ W2) Hfin) as (_ & Hl3 & _).
  assert (Hval : forall n d w ss, In (n, d) l -> built mall (stage p2 p3 n) n w ss -> exists s u d', spend_at p n s /\ spent_output s u /\ derives d d' /\ to_script u = spk_of d'
    /\ valid_spend (p0_unsigned_tx p) n us u (snd s) d' ss w /\ wf_value ss /\ wf_witness_v w).
  { intros n d w ss Hin Hb. destruct (Hstep n d Hin) as (ti & i & i2 & u & d' & Hs & Hs2 & Hder & Hso & _ & Eu & Hsp).
    pose proof (stage_spend p2 p3 n _ Hl3 Hs2) as Hs3. assert (Est : p0_unsigned_tx (stage p2 p3 n) = p0_unsigned_tx p1) by (rewrite <- Etx2; reflexivity).
    destruct (Hsp (stage p2 p3 n) Est Hs3) as (w' & ss' & Hb' & Hv & Hz1 & Hz2 & _). destruct (built_fun _ _ _ _ _ _ _ Hb Hb') as [-> ->].
    exists (ti, i), u, d'. split; [exact Hs|]. split; [exact Hso|]. split; [exact Hder|]. split; [exact Eu|]. rewrite <- Etx. auto. }
  assert (W3 : wf_psbt0 p3).
  { apply (C70_v0_wf X M NM mall p2 p3 [] W2 Hfin). intros n w ss Hb.
    assert (Hs : exists s, spend_at p2 n s).
    { apply built_spend in Hb as [s Hs]. destruct s as [a b]. apply spend_at_iff in Hs as [A B]. rewrite stage_at in B by exact Hl3. exists (a, b). apply spend_at_iff. auto. }
    destruct Hs as [s Hs]. destruct (Hnamed2 n s Hs) as [d Hin]. destruct (Hval n d w ss Hin Hb) as (_ & _ & _ & _ & _ & _ & _ & _ & H). exact H. }
  exists p3, t. split; [exact Hfin|]. split; [exact Ht|]. split; [exact W3|].
  split; [now rewrite Hstrip, Etx2|]. split.
  - apply (same_spent p1 p); [|exact Hus]. split; [exact Etx|]. apply F2_of_nth; [exact Hlen|]. intros k a b Ha Hb.
    assert (Hs0 : exists s0, spend_at p (N.of_nat k) s0).
    { apply spend_of; [exact (wp0_input_count _ W)|]. assert (Q : nth_error (p0_inputs p) k <> None) by congruence. apply nth_error_Some in Q. unfold blen. lia. }
    destruct Hs0 as [s0 Hs0]. destruct (named l p _ s0 Hall Hs0) as [d Hin]. destruct (Hat _ d Hin) as (ti & i & i1 & u & d' & G1 & G2 & _ & _ & _ & Hi).
    apply spend_at_iff in G1 as [_ G1]. apply spend_at_iff in G2 as [_ G2]. rewrite Nat2N.id in G1, G2.
    assert (a = i1) by congruence. assert (b = i) by congruence. subst a b. destruct (updated_kept _ _ _ Hi) as [A B _ _ _ _]. split; congruence.
  - intros n d d' ti Hin Hder Hti. destruct (Hbuilt n ti Hti) as [Hb _]. destruct (Hval n d _ _ Hin Hb) as (s & u & d'' & H1 & H2 & H3 & H4 & H5 & _).
    pose proof (derives_fun _ _ _ H3 Hder) as ->. exists s, u. auto.
Qed.

Lemma workflow {LS : SignLaws X S} mall prov l p p1 :
  wf_psbt0 p -> Forall untouched (p0_inputs p) -> NoDup (map fst l) -> (forall n, n < blen (p0_inputs p) -> In n (map fst l)) ->
  (forall n d, In (n, d) l -> exists d', derives d d' /\ sound d' /\ signable prov d' /\
     forall ti i, spend_at p n (ti, i) -> typed_for (p0_unsigned_tx p) n d' i) ->
  updates l p p1 ->
  exists p2 used p3 t us, psbt0_sign prov p1 = Ok (p2, used, []) /\ finalize_any mall p2 = Ok (p3, []) /\ extract_checked p3 = Ok t
    /\ wf_psbt0 p1 /\ wf_psbt0 p2 /\ wf_psbt0 p3 /\ strip_signatures t = p0_unsigned_tx p /\ spent_outputs p us
    /\ forall n d d' ti, In (n, d) l -> derives d d' -> nth_error (tx_input t) (N.to_nat n) = Some ti ->
         exists s u, spend_at p n s /\ spent_output s u /\ to_script u = spk_of d'
           /\ valid_spend (p0_unsigned_tx p) n us u (snd s) d' (ti_script_sig ti) (ti_witness ti).
Proof.
  intros W Hun Hnd Hall Hd Hup.
  destruct (workflow_start l p p1 W Hun Hnd Hall) as (W1 & Etx & Hat & us & Hus); [|exact Hup|].
  { intros n d Hin. destruct (Hd n d Hin) as (d' & H1 & H2 & H3 & _). exists d'. split; [exact H1|]. split; [exact H2|]. exact (signable_plain prov d' H3). }
  destruct (psbt0_sign prov p1) as [[[p2 used] errs]|[]|] eqn:Hsign; [|exfalso; apply (C48_sign_panic_iff X S T) in Hsign; exact (oob_spent p1 us Hsign Hus)].
  pose proof (C60_v0_wf X S T LS LT prov p1 p2 used errs Hsign W1) as W2.
  assert (Hsorted : Forall sorted_origins (p0_inputs p1)).
  { pose proof (wp0_inputs _ W1) as G. apply Forall_forall. intros j Hj. rewrite Forall_forall in G. apply (wi0_tap_key_origins _ (G j Hj)). }
  destruct (C81_signed X S T prov p1 p2 used errs Hsign Hsorted) as [Hsb _].
  assert (Etx2 : p0_unsigned_tx p2 = p0_unsigned_tx p1) by (rewrite (sb0_rest _ _ Hsb); reflexivity).
  assert (Hlen : length (p0_inputs p1) = length (p0_inputs p)) by (rewrite (wp0_input_count _ W1), (wp0_input_count _ W), Etx; reflexivity).
  assert (Hstep : forall n d, In (n, d) l -> (forall e, ~ In (n, e) errs) /\ exists ti i i2 u d', spend_at p n (ti, i) /\ spend_at p2 n (ti, i2)
    /\ derives d d' /\ spent_output (ti, i) u /\ funds0 (ti, i2) u /\ to_script u = spk_of d' /\ spent_by mall (p0_unsigned_tx p1) n us i i2 ti u d').
  { intros n d Hin. destruct (Hat n d Hin) as (ti & i & i1 & u & d' & Hs & Hs1 & Hder & Hu & Eu & Hi). destruct (Hd n d Hin) as (d'' & H1 & H2 & H3 & H4).
    pose proof (derives_fun _ _ _ H1 Hder) as ->.
    assert (Hf1 : funds0 (ti, i1) u) by (apply (kept_funds i i1 ti u (updated_kept _ _ _ Hi)); eapply spendable_funds; exact Hu).
    assert (Hui : untouched i) by (rewrite Forall_forall in Hun; apply Hun; apply spend_at_iff in Hs as [_ Hs]; eapply nth_error_In; exact Hs).
    assert (Hty : typed_for (p0_unsigned_tx p1) n d' i) by (rewrite Etx; eapply H4; exact Hs).
    destruct (signed_ready mall prov p1 p2 used errs us n ti i i1 d' u W1 Hsign W2 Hs1 Hi Hui H3 Hf1 Eu Hty Hus) as (Herr & i2 & Hi2 & Hsu & Hsp).
    split; [exact Herr|]. exists ti, i, i2, u, d'. split; [exact Hs|]. split.
    - apply spend_at_iff in Hs1 as [A _]. apply spend_at_iff. rewrite Etx2. auto.
    - split; [exact Hder|]. split; [exact (proj1 Hu)|]. split; [now apply (same_utxos_funds ti i1 i2 u Hsu)|]. auto. }
  assert (Herrs : errs = []).
  { destruct errs as [|[n e] errs]; [reflexivity|exfalso]. destruct (C85_partition X S T prov p1 p2 used _ Hsign) as (_ & _ & _ & Hidx).
    assert (Hn : n < blen (p0_inputs p1)) by (apply Hidx; right; now left).
    assert (Hn0 : n < blen (p0_inputs p)) by (unfold blen in *; lia).
    pose proof (Hall n Hn0) as Hin. apply in_map_iff in Hin as ([m d] & E & Hin). cbn [fst] in E. subst m.
    destruct (Hstep n d Hin) as [Hno _]. apply (Hno e). now left. }
  subst errs.
  destruct (workflow_end mall us l p p1 p2 W W1 W2 Hall Etx Hat Hus Hsb (fun n d Hin => proj2 (Hstep n d Hin))) as (p3 & t & H1 & H2 & H3 & H4).
  exists p2, used, p3, t, us. split; [reflexivity|]. split; [exact H1|]. split; [exact H2|]. split; [exact W1|]. split; [exact W2|]. split; [exact H3|]. exact H4.
Qed.

End Final.
