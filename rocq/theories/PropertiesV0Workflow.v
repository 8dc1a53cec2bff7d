(** C116: what can be stored after an update. *)
From Coq Require Import Sorted.
From Verif Require Import Base OMap Consensus ConsensusFacts Ext ExtInstance Raw TapTree SpecCodec Serialize SerializeFacts MapCodec
  SpecPsbt V2Global V2Input V2Psbt SampleV2 V2Roles Script SighashType V2Sign SignInstance SpecSign V2RolesFacts
  V0Error V0Input V0Output V0Psbt SpecPsbt0 V0WireFacts SampleV0 SpecExtract0 V0ExtractFacts V0Sign SchnorrInstance SpecSign0 V0SignFacts
  V0Finalize SpecFinalize0 V0Update SpecUpdate0 V0UpdateFacts V0UpdateItemFacts V0UpdatePsbtFacts DescInstance
  SpecWorkflow0 UpdateWfFacts PropertiesV0Sign PropertiesV0Update.
Local Open Scope N_scope.

(** Used by the examples only; the theorems bind their own. *)
#[local] Existing Instance toy | 100.
#[local] Existing Instance toy_laws | 100.
#[local] Existing Instance toy_sign | 100.
#[local] Existing Instance toy_schnorr | 100.
#[local] Existing Instance toy_desc | 100.
#[local] Existing Instance toy_desc_laws | 100.

(** ** C116: what can be stored after an update *)

(** After the update of an input the PSBT can be read back exactly when each taproot origin of the
    input fits into a value; what is read back is the PSBT, up to tap trees with the same root. *)
Theorem C116_input : forall (X : Ext) (L : ExtLaws X) (T : SchnorrExt) (LD : DescLaws T) (D : DescExt) n d d' p p' i',
  wf_psbt0 p -> update_input n d p = (p', Ok tt) -> derives d d' -> sound d' ->
  nth_error (p0_inputs p') (N.to_nat n) = Some i' ->
  ((exists q, psbt0_deserialize (psbt0_serialize p') = Ok q /\ psbt0_eq p' q) <-> origins_fit (i0_tap_key_origins i')).
Proof.
  intros X L T LD D n d d' p p' i' W H Hd Hso Hi. pose proof (update_input_wf n d d' p p' i' W H Hd Hso Hi) as Hw. split.
  - intros (q & Hq & [Eq _]). apply deserialize0_wf in Hq.
    assert (Ei : p0_inputs q = p0_inputs p') by (destruct p', q; injection Eq; intros; cbn; congruence).
    assert (Wi : wf_input0 i').
    { pose proof (wp0_inputs _ Hq) as G. rewrite Forall_forall in G. apply G. rewrite Ei. eapply nth_error_In; exact Hi. }
    apply wf_origins_fit. exact (wi0_tap_key_origins _ Wi).
  - intros Ho. apply psbt0_roundtrip. now apply Hw.
Qed.
Print Assumptions C116_input.

(** After the update of an output the tree has to fit too. *)
Theorem C116_output : forall (X : Ext) (L : ExtLaws X) (T : SchnorrExt) (LD : DescLaws T) (D : DescExt) n d d' p p' o',
  wf_psbt0 p -> update_output n d p = (p', Ok tt) -> derives d d' -> sound d' ->
  nth_error (p0_outputs p') (N.to_nat n) = Some o' ->
  (origins_fit (o0_tap_key_origins o') -> tree_fits d' -> exists q, psbt0_deserialize (psbt0_serialize p') = Ok q /\ psbt0_eq p' q)
  /\ (no_tap_ties0 p' ->
       (psbt0_deserialize (psbt0_serialize p') = Ok p' <-> origins_fit (o0_tap_key_origins o') /\ tree_fits d')).
Proof.
  intros X L T LD D n d d' p p' o' W H Hd Hso Ho. pose proof (update_output_wf n d d' p p' o' W H Hd Hso Ho) as Hw. split.
  - intros H1 H2. apply psbt0_roundtrip. apply Hw. now split.
  - intros Ht. rewrite <- Hw. split; [apply deserialize0_wf|intros G; now apply psbt0_roundtrip_exact].
Qed.
Print Assumptions C116_output.

(** Without taproot everything fits. *)
Theorem C116_plain : forall (X : Ext) (L : ExtLaws X) (T : SchnorrExt) (LD : DescLaws T) (D : DescExt) n d d' p p',
  wf_psbt0 p -> derives d d' -> sound d' -> ~ taproot d' ->
  update_input n d p = (p', Ok tt) \/ update_output n d p = (p', Ok tt) ->
  exists q, psbt0_deserialize (psbt0_serialize p') = Ok q /\ psbt0_eq p' q.
Proof.
  intros X L T LD D n d d' p p' W Hd Hso Ht [H|H]; apply psbt0_roundtrip.
  - exact (update_input_plain_wf n d d' p p' W Hd Hso Ht H).
  - exact (update_output_plain_wf n d d' p p' W Hd Hso Ht H).
Qed.
Print Assumptions C116_plain.

(** Soundness of the descriptors of the examples. *)
Definition sound_keyb (k : ddkey) : bool :=
  match secp_parse (pub_inner (fst k)) with Some c => bytes_eqb c (pub_inner (fst k)) | None => false end
  && ((length (x_of k) =? 32)%nat && xonly_ok (x_of k))
  && ((length (ks_fp (snd k)) =? 4)%nat && forallb (fun c => c <? U32) (ks_path (snd k))
      && (blen (ser_keysource (snd k)) <=? MAX_VALUE)).
Lemma sound_keyb_ok k : sound_keyb k = true -> sound_key k.
Proof.
  unfold sound_keyb. rewrite !Bool.andb_true_iff. intros ((H1 & (H2 & H3)) & ((H4 & H5) & H6)).
  split; [|split]; [|split|split; [|split]].
  - unfold wf_pubkey, wf_secp. destruct (secp_parse (pub_inner (fst k))) as [c|] eqn:E; [|discriminate H1].
    apply bytes_eqb_eq in H1. now f_equal.
  - now apply Nat.eqb_eq.
  - exact H3.
  - now apply Nat.eqb_eq.
  - apply Forall_forall. intros c Hc. rewrite forallb_forall in H5. apply N.ltb_lt. now apply H5.
  - now apply N.leb_le.
Qed.
Definition sound_scriptsb (d : descr ddkey) : bool :=
  match d with
  | DscWsh _ s | DscSh _ s | DscShWsh _ s => blen s <=? MAX_VALUE
  | DscTr _ tree => forallb (fun l => blen (lf_script l) + 1 <=? MAX_VALUE) (tr_scripts tree)
  | _ => true
  end.
Definition soundb (d : descr ddkey) : bool := forallb sound_keyb (all_keys d) && sound_scriptsb d.
Lemma soundb_ok d : soundb d = true -> sound d.
Proof.
  unfold soundb. rewrite Bool.andb_true_iff. intros [H1 H2]. split.
  - apply Forall_forall. intros k Hk. apply sound_keyb_ok. rewrite forallb_forall in H1. now apply H1.
  - destruct d; cbn [sound_scriptsb sound_scripts] in *; auto; [now apply N.leb_le..|].
    apply Forall_forall. intros l Hl. rewrite forallb_forall in H2. apply N.leb_le. now apply H2.
Qed.
Lemma up_sound d : In d up_all -> sound d.
Proof.
  assert (H : forallb soundb up_all = true) by (vm_compute; reflexivity).
  intros Hin. rewrite forallb_forall in H. apply soundb_ok. now apply H.
Qed.
Lemma up_p_wf : wf_psbt0 up_p.
Proof. apply (deserialize0_wf (psbt0_serialize up_p)). vm_compute. reflexivity. Qed.

(** A key at the end of a path of 999997 steps: its source fits, with one leaf hash it does not. *)
Definition long_key : ddkey := (PubKey true (ex0_pk 1), KeySource (toy_fp [x05] []) (repeat 0 (N.to_nat 999997))).
Definition long_tr : descr ddkey := DscTr (up_key 3) (Some (DLeaf (DLeafScript [x51] [long_key]))).
Definition long_p : psbt0 := up_psbt up_in [long_tr].
Lemma long_wf : wf_psbt0 long_p.
Proof.
  assert (H : psbt0_deserialize (psbt0_serialize long_p) = Ok long_p) by (vm_compute; reflexivity).
  exact (deserialize0_wf _ _ H).
Qed.

Theorem C116_refuted : exists (X : Ext) (L : ExtLaws X) (T : SchnorrExt) (LD : DescLaws T) (D : DescExt) d d' p p' i',
  wf_psbt0 p /\ update_input 0 d p = (p', Ok tt) /\ derives d d' /\ sound d' /\ nth_error (p0_inputs p') 0 = Some i'
  /\ ~ origins_fit (i0_tap_key_origins i').
Proof.
  set (r := update_input 0 (given long_tr) long_p).
  assert (E : snd r = Ok tt) by (vm_compute; reflexivity).
  assert (Hb : match p0_inputs (fst r) with i :: _ => forallb (fun e => origin_size (snd e) <=? MAX_VALUE) (i0_tap_key_origins i) = false | [] => False end)
    by (vm_compute; reflexivity).
  assert (Hk : soundb long_tr = true) by (vm_compute; reflexivity).
  pose proof long_wf as W.
  destruct (p0_inputs (fst r)) as [|i l] eqn:Ei; [destruct Hb|].
  exists toy, toy_laws, toy_schnorr, toy_desc_laws, toy_desc, (given long_tr), long_tr, long_p, (fst r), i.
  split; [exact W|]. split; [rewrite <- E; apply surjective_pairing|]. split; [apply given_derives|]. split; [now apply soundb_ok|]. split.
  - now rewrite Ei.
  - intros Hf. unfold origins_fit in Hf. rewrite Forall_forall in Hf. apply Bool.not_true_iff_false in Hb. apply Hb. apply forallb_forall. intros e He.
    apply N.leb_le. now apply Hf.
Qed.
Print Assumptions C116_refuted.

(** All inputs and outputs of the PSBT for all the descriptors updated, written and read back. *)
Definition up_done : psbt0 :=
  fold_left (fun p e => fst (update_output (fst e) (given (snd e)) p)) (indexed up_all) (up_inputs up_p up_all).
Example C116_example :
  wf_psbt0 up_p /\ (forall d, In d up_all -> sound d) /\ psbt0_deserialize (psbt0_serialize up_done) = Ok up_done
  /\ (blen (psbt0_serialize up_p) <? blen (psbt0_serialize up_done)) = true.
Proof. split; [exact up_p_wf|]. split; [exact up_sound|]. vm_compute. auto. Qed.
