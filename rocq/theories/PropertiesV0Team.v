(** C120: the whole way from an unsigned transaction to a signed one with several signers. *)
From Verif Require Import Base OMap Consensus ConsensusFacts Ext ExtInstance Raw TapTree SpecCodec Serialize SerializeFacts MapCodec
  SpecPsbt SpecRoles SampleV2 V2Roles Script SighashType V2Sign SignInstance SpecSign V2Finalize SpecFinalize MsInstance
  V0Error V0Input V0Output V0Psbt SpecPsbt0 V0WireFacts SampleV0 SpecExtract0 V0Sign SchnorrInstance SpecSign0 V0SignFacts V0SignResultFacts
  V0Finalize SpecFinalize0 MsInstance0 V0Update SpecUpdate0 V0UpdateFacts DescInstance
  V0FinalizeFacts SpecWorkflow0 SpecTeam0 SpecParallel0 V0ParallelFacts V0WorkflowFacts V0TeamFacts KeyInstance
  PropertiesV0Sign PropertiesV0Finalize PropertiesV0Update PropertiesV0Workflow PropertiesV0Whole PropertiesV0Parallel.
Local Open Scope N_scope.

(** Used by the examples only; the theorems bind their own. *)
#[local] Existing Instance toy | 100.
#[local] Existing Instance toy_laws | 100.
#[local] Existing Instance toy_sign | 100.
#[local] Existing Instance toy_schnorr | 100.
#[local] Existing Instance toy_desc | 100.
#[local] Existing Instance toy_desc_laws | 100.
#[local] Existing Instance key_ms | 100.
#[local] Existing Instance key_nm | 100.

(** Whatever way the updated PSBT takes among the signers and combiners, the finalizer and the extractor
    give the transaction with valid signatures of all inputs. *)
Theorem C120_workflow : forall (X : Ext) (L : ExtLaws X) (S : SignExt) (LS : SignLaws X S) (T : SchnorrExt) (LT : SchnorrLaws S T) (LD : DescLaws T) (D : DescExt)
    (M : MsExt) (NM : MsNmExt M) (ML : MsLaws X M) (NL : MsNmLaws M NM) (KL : KeySpendLaws X S T M) mall ks l p p1 p2,
  wf_psbt0 p -> Forall untouched (p0_inputs p) -> NoDup (map fst l) -> (forall n, n < blen (p0_inputs p) -> In n (map fst l)) ->
  (forall n d, In (n, d) l -> exists d', derives d d' /\ sound d' /\ team_for ks d' /\
     forall ti i, spend_at p n (ti, i) -> typed_for (p0_unsigned_tx p) n d' i) ->
  updates l p p1 -> (forall k k', In k ks -> In k' ks -> in_agreement p1 k k') -> made p1 ks p2 ->
  exists p3 t us, finalize_any mall p2 = Ok (p3, []) /\ extract_checked p3 = Ok t
    /\ (forall q, In q [p1; p2; p3] -> exists q', psbt0_deserialize (psbt0_serialize q) = Ok q' /\ psbt0_eq q q')
    /\ strip_signatures t = p0_unsigned_tx p /\ spent_outputs p us
    /\ forall n d d' ti, In (n, d) l -> derives d d' -> nth_error (tx_input t) (N.to_nat n) = Some ti ->
         exists s u, spend_at p n s /\ spent_output s u /\ to_script u = spk_of d'
           /\ valid_spend (p0_unsigned_tx p) n us u (snd s) d' (ti_script_sig ti) (ti_witness ti).
Proof.
  intros X L S LS T LT LD D M NM ML NL KL mall ks l p p1 p2 W Hun Hnd Hall Hd Hup Hag Hm.
  destruct (team_workflow mall ks l p p1 p2 W Hun Hnd Hall Hd Hup Hag Hm) as (p3 & t & us & H2 & H3 & W1 & W2 & W3 & H4).
  exists p3, t, us. split; [exact H2|]. split; [exact H3|]. split; [|exact H4].
  intros q [<-|[<-|[<-|[]]]]; apply psbt0_roundtrip; assumption.
Qed.
Print Assumptions C120_workflow.

(** Nobody is stopped on the way: every signer can sign every copy, and any two copies can be combined. *)
Theorem C120_goes_on : forall (X : Ext) (L : ExtLaws X) (S : SignExt) (LS : SignLaws X S) (T : SchnorrExt) (LT : SchnorrLaws S T) (LD : DescLaws T) (D : DescExt)
    ks l p p1,
  wf_psbt0 p -> Forall untouched (p0_inputs p) -> NoDup (map fst l) -> (forall n, n < blen (p0_inputs p) -> In n (map fst l)) ->
  (forall n d, In (n, d) l -> exists d', derives d d' /\ sound d' /\ team_for ks d') ->
  updates l p p1 -> (forall k k', In k ks -> In k' ks -> in_agreement p1 k k') ->
  (forall js q k, (forall j, In j js -> In j ks) -> In k ks -> made p1 js q -> exists r used errs, psbt0_sign k q = Ok (r, used, errs))
  /\ (forall js js' q q', (forall j, In j js -> In j ks) -> (forall j, In j js' -> In j ks) -> made p1 js q -> made p1 js' q' ->
        exists r, psbt0_combine q q' = Ok r).
Proof.
  intros X L S LS T LT LD D ks l p p1 W Hun Hnd Hall Hd Hup Hag.
  destruct (team_start ks l p p1 W Hun Hnd Hall Hd Hup) as (W1 & _ & _ & (us & Hus) & _ & Hfresh).
  assert (Ht : team p1 ks) by (split; [exact Hag|]; intros k _; apply Hfresh).
  assert (Hb : vouts_in_bounds p1) by (apply in_bounds_iff; intros He; exact (oob_spent p1 us He Hus)).
  split.
  - intros js q k Hj Hk Hm. destruct (sign0_ok k p1 Hb) as (p' & used & errs & Hp').
    destruct (proj1 (C118_goes_on X S T p1 js q W1 (team_sub _ _ _ Ht Hj) Hm) k p' used errs Hp') as (r & used' & Hr). eauto.
  - intros js js' q q' Hj Hj' Hm Hm'.
    apply (proj2 (C118_goes_on X S T p1 js q W1 (team_sub _ _ _ Ht Hj) Hm) js' q'); [|exact Hm'].
    apply (team_sub _ _ _ Ht). intros j Hin. apply in_app_or in Hin as [Hin|Hin]; auto.
Qed.
Print Assumptions C120_goes_on.

(** Nor does it matter which signers sign if a key is held by more than one: as soon as every input has
    been signed by somebody, the PSBT is complete. *)
Theorem C120_enough : forall (X : Ext) (L : ExtLaws X) (S : SignExt) (LS : SignLaws X S) (T : SchnorrExt) (LT : SchnorrLaws S T) (LD : DescLaws T) (D : DescExt)
    ks ks' l p p1 q q',
  wf_psbt0 p -> Forall untouched (p0_inputs p) -> NoDup (map fst l) -> (forall n, n < blen (p0_inputs p) -> In n (map fst l)) ->
  (forall n d, In (n, d) l -> exists d', derives d d' /\ sound d' /\ team_for ks d' /\ team_for ks' d') ->
  updates l p p1 -> (forall k k', In k (ks ++ ks') -> In k' (ks ++ ks') -> in_agreement p1 k k') ->
  made p1 ks q -> made p1 ks' q' -> q = q'.
Proof.
  intros X L S LS T LT LD D ks ks' l p p1 q q' W Hun Hnd Hall Hd Hup Hag Hm Hm'.
  destruct (team_start ks l p p1 W Hun Hnd Hall) as (W1 & _ & _ & (us & Hus) & Hin & Hfresh); [|exact Hup|].
  { intros n d Hin. destruct (Hd n d Hin) as (d' & H1 & H2 & H3 & _). eauto. }
  apply (team_same p1 ks ks' q q' W1); [split; [exact Hag|]; intros k _; apply Hfresh|exact Hm|exact Hm'| |].
  - intros n ti i1 Hs. destruct (Hin n ti i1 Hs) as (d & i & d' & Hl & Hs' & Hder & Hi). destruct (Hd n d Hl) as (d'' & H1 & _ & H3 & H4).
    pose proof (derives_fun _ _ _ H1 Hder) as ->. exists i, d'. split; [exact Hi|]. split; [|auto]. rewrite Forall_forall in Hun. apply Hun.
    apply spend_at_iff in Hs' as [_ Hs']. eapply nth_error_In. exact Hs'.
  - apply in_bounds_iff. intros He. exact (oob_spent p1 us He Hus).
Qed.
Print Assumptions C120_enough.

(** The PSBT of C117: one signer has the keys 1, 3 and 4, another the keys 2, 4 and 5. *)
Definition te_ks : list provider := [ex0_part [1; 3; 4]; ex0_part [2; 4; 5]].
Definition ableb (ns : list N) (d : descr ddkey) : bool :=
  let k := ex0_part ns in
  match d with
  | DscPkh kk | DscWpkh kk | DscShWpkh kk =>
      match k (KRBip32 (snd kk)) with
      | inr (Some sk) => Bool.eqb (pv_compressed sk) (pub_compressed (fst kk)) && bytes_eqb (secret_pubkey (pv_secret sk)) (pub_inner (fst kk)) && pub_compressed (fst kk)
      | _ => false
      end
  | DscTr kk None => match k (KRBip32 (snd kk)) with inr (Some sk) => bytes_eqb (x_public sk) (x_of kk) | _ => false end
  | _ => false
  end.
Definition unableb (ns : list N) (d : descr ddkey) : bool :=
  let k := ex0_part ns in
  match d with
  | DscPkh kk => match k (KRBip32 (snd kk)) with inr (Some _) => false | _ => true end
  | DscWpkh kk | DscShWpkh kk => pub_compressed (fst kk) && match k (KRBip32 (snd kk)) with inr (Some _) => false | _ => true end
  | DscTr kk None => match k (KRBip32 (snd kk)) with inr (Some _) => false | _ => true end
  | _ => false
  end.
Lemma ableb_ok ns d : ableb ns d = true -> signable (ex0_part ns) d.
Proof.
  unfold ableb. cbv zeta. intros H.
  assert (G : forall kk sk, ex0_part ns (KRBip32 (snd kk)) = inr (Some sk) -> single d kk ->
    Bool.eqb (pv_compressed sk) (pub_compressed (fst kk)) && bytes_eqb (secret_pubkey (pv_secret sk)) (pub_inner (fst kk)) && pub_compressed (fst kk) = true ->
    signable (ex0_part ns) d).
  { intros kk sk Hk Hd Hb. apply andb_prop in Hb as [Hb _]. apply andb_prop in Hb as [H1 H2]. apply Bool.eqb_prop in H1. apply bytes_eqb_eq in H2.
    apply (SgEcdsa _ d kk sk Hd); [now left|]. unfold public_of. rewrite H1, H2. now destruct (fst kk). }
  destruct d as [|kk|kk| | |kk| |kk [|]]; try discriminate;
    destruct (ex0_part ns (KRBip32 (snd kk))) as [|[sk|]] eqn:E; try discriminate.
  - apply (G kk sk E); [now left|exact H].
  - apply (G kk sk E); [right; split; [now left|]|exact H]. now apply andb_prop in H as [_ H].
  - apply (G kk sk E); [right; split; [now right|]|exact H]. now apply andb_prop in H as [_ H].
  - apply (SgTaproot _ kk sk E). now apply bytes_eqb_eq in H.
Qed.
Lemma unableb_ok ns d : unableb ns d = true -> unable (ex0_part ns) d.
Proof.
  unfold unableb. cbv zeta. intros H.
  assert (G : forall kk, match ex0_part ns (KRBip32 (snd kk)) with inr (Some _) => false | _ => true end = true -> single d kk -> unable (ex0_part ns) d).
  { intros kk Hk Hd. apply (UnEcdsa _ d kk Hd). intros sk [Hs|[_ Hs]]; [now rewrite Hs in Hk|discriminate Hs]. }
  destruct d as [|kk|kk| | |kk| |kk [|]]; try discriminate.
  - apply (G kk H). now left.
  - apply andb_prop in H as [H1 H]. apply (G kk H). right. split; [now left|exact H1].
  - apply andb_prop in H as [H1 H]. apply (G kk H). right. split; [now right|exact H1].
  - apply UnTaproot. intros sk Hs. now rewrite Hs in H.
Qed.
Lemma te_team d : In d wh_descs -> team_for te_ks d.
Proof.
  intros Hd. assert (G : forallb (fun d => (ableb [1; 3; 4] d || ableb [2; 4; 5] d) && (ableb [1; 3; 4] d || unableb [1; 3; 4] d) && (ableb [2; 4; 5] d || unableb [2; 4; 5] d)) wh_descs = true)
    by (vm_compute; reflexivity).
  rewrite forallb_forall in G. specialize (G d Hd). apply andb_prop in G as [G G3]. apply andb_prop in G as [G1 G2].
  apply Bool.orb_prop in G1, G2, G3. split.
  - destruct G1 as [G1|G1]; apply ableb_ok in G1; [exists (ex0_part [1; 3; 4])|exists (ex0_part [2; 4; 5])]; (split; [cbn [te_ks In]; auto|exact G1]).
  - intros k [<-|[<-|[]]]; [destruct G2 as [G|G]|destruct G3 as [G|G]]; auto using ableb_ok, unableb_ok.
Qed.
Lemma te_agree k k' : In k te_ks -> In k' te_ks -> in_agreement wh_p1 k k'.
Proof.
  assert (H : forallb (fun k => forallb (agreementb wh_p1 k) te_ks) te_ks = true) by (vm_compute; reflexivity).
  rewrite forallb_forall in H. intros Hk Hk'. specialize (H k Hk). rewrite forallb_forall in H. exact (agreementb_ok wh_p1 k k' (H k' Hk')).
Qed.

(** Both sign apart; the copies are combined.  Neither copy alone can be finalized. *)
Example C120_example :
  wf_psbt0 wh_p /\ Forall untouched (p0_inputs wh_p) /\ NoDup (map fst wh_l) /\ (forall n, n < blen (p0_inputs wh_p) -> In n (map fst wh_l))
  /\ (forall n d, In (n, d) wh_l -> exists d', derives d d' /\ sound d' /\ team_for te_ks d' /\
     forall ti i, spend_at wh_p n (ti, i) -> typed_for (p0_unsigned_tx wh_p) n d' i)
  /\ updates wh_l wh_p wh_p1 /\ (forall k k', In k te_ks -> In k' te_ks -> in_agreement wh_p1 k k')
  /\ exists a b c, made wh_p1 [ex0_part [1; 3; 4]] a /\ made wh_p1 [ex0_part [2; 4; 5]] b /\ psbt0_combine a b = Ok c /\ made wh_p1 te_ks c
     /\ then_holds (finalize_any false a) (fun r => length (snd r) = 2%nat) /\ then_holds (finalize_any false b) (fun r => length (snd r) = 2%nat)
     /\ then_holds (finalize_any false c) (fun r => snd r = [] /\ then_holds (extract_checked (fst r)) (fun t =>
          map (fun i => (blen (ti_script_sig i), map blen (ti_witness i))) (tx_input t)
          = [(69, []); (0, [64]); (0, [34; 33]); (23, [34; 33]); (0, [65])])).
Proof.
  destruct C117_example as (H1 & H2 & H3 & H4 & H5 & H6 & _). split; [exact H1|]. split; [exact H2|]. split; [exact H3|]. split; [exact H4|]. split.
  { intros n d Hin. destruct (H5 n d Hin) as (d' & A1 & A2 & A3 & A4). pose proof Hin as Hin'. apply in_map_iff in Hin as (m & E & Hm). injection E as -> <-.
    exists (nth (N.to_nat n) wh_descs up_tr). pose proof (derives_fun _ _ _ (given_derives (nth (N.to_nat n) wh_descs up_tr)) A1) as <-.
    split; [exact A1|]. split; [exact A2|]. split; [|exact A4]. apply te_team. apply nth_In. cbn [In] in Hm. cbn [wh_descs length]. lia. }
  split; [exact H6|]. split; [exact te_agree|].
  assert (H : exists a ua ea b ub eb c, psbt0_sign (ex0_part [1; 3; 4]) wh_p1 = Ok (a, ua, ea) /\ psbt0_sign (ex0_part [2; 4; 5]) wh_p1 = Ok (b, ub, eb) /\ psbt0_combine a b = Ok c
    /\ then_holds (finalize_any false a) (fun r => length (snd r) = 2%nat) /\ then_holds (finalize_any false b) (fun r => length (snd r) = 2%nat)
    /\ then_holds (finalize_any false c) (fun r => snd r = [] /\ then_holds (extract_checked (fst r)) (fun t =>
          map (fun i => (blen (ti_script_sig i), map blen (ti_witness i))) (tx_input t)
          = [(69, []); (0, [64]); (0, [34; 33]); (23, [34; 33]); (0, [65])]))).
  { do 7 eexists. split; [vm_compute; reflexivity|]. split; [vm_compute; reflexivity|]. split; [vm_compute; reflexivity|]. split; [vm_compute; reflexivity|].
    split; [vm_compute; reflexivity|]. vm_compute. split; reflexivity. }
  destruct H as (a & ua & ea & b & ub & eb & c & Ha & Hb & Hc & H). exists a, b, c.
  assert (Ma : made wh_p1 [ex0_part [1; 3; 4]] a) by (eapply MadeSign; [apply MadeStart|exact Ha]).
  assert (Mb : made wh_p1 [ex0_part [2; 4; 5]] b) by (eapply MadeSign; [apply MadeStart|exact Hb]).
  split; [exact Ma|]. split; [exact Mb|]. split; [exact Hc|]. split; [|exact H]. exact (MadeCombine _ _ _ _ _ _ Ma Mb Hc).
Qed.
