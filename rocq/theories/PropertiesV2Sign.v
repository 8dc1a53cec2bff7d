(** C22 (whole signing), C30-C34, C50, C60-C65: signing. *)
From Coq Require Import Sorted.
From Verif Require Import Base OMap Consensus ConsensusFacts Ext ExtInstance Raw RawFacts TapTree Serialize SerializeFacts MapCodec
  V2Global V2Input V2Output V2Psbt SpecCodec SpecPsbt V2PsbtFacts V2WireFacts V2Roles SpecRoles V2RolesFacts SpecCombine V2CombineFacts
  Script SighashType V2Sign SignInstance SpecSign V2SignFacts V2SignMergeFacts SampleV2.
Local Open Scope N_scope.

(** Used by the examples only; the theorems bind their own. *)
#[local] Existing Instance toy | 100.
#[local] Instance ex_cfg : Cfg | 100 := cfg_of false false.
#[local] Existing Instance toy_sign | 100.

(** Values for the examples: inputs of all kinds, and a provider that has two keys. *)
Definition ex_sec_a : bytes := repeat x0a 32.
Definition ex_sec_b : bytes := repeat x0b 32.
Definition ex_pk (s : bytes) : bytes := toy_pubkey s.
Definition ex_src (n : N) : keysource := KeySource [x01; x02; x03; x04] [n].
Definition ex_keys (l : list bytes) : provider :=
  map_get_key (map (fun s => (PubKey true (ex_pk s), PrivKey true s)) l).
Definition ex_spend (n : N) (script : bytes) : input :=
  set_in_bip32_derivations (m_put bkey (ex_pk ex_sec_b) (ex_src 2) [(ex_pk ex_sec_a, ex_src 1)])
    (set_in_witness_utxo (Some (TxOut 5000 script)) (input_new (txid_a, n))).
Definition ex_wpkh : input := ex_spend 0 (program_script 0 (repeat x11 20)).
Definition ex_wsh : input := set_in_sighash_type (Some 131) (set_in_witness_script (Some [x51]) (ex_spend 1 (program_script 0 (repeat x22 32)))).
Definition ex_sh : input := set_in_redeem_script (Some [x52]) (ex_spend 2 (p2sh_script (repeat x33 20))).
Definition ex_tr : input := ex_spend 3 (program_script 1 (repeat x44 32)).
Definition ex_bare : input := ex_spend 4 (p2pkh_script (repeat x55 20)).
Definition ex_shwsh : input :=
  set_in_witness_script (Some [x53]) (set_in_redeem_script (Some (program_script 0 (repeat x66 32))) (ex_spend 5 (p2sh_script (repeat x77 20)))).
Definition ex_of (flags : N) (is : list input) : psbt :=
  Psbt (set_g_tx_modifiable_flags flags (set_g_output_count 1 (set_g_input_count (blen is) (global_new))))
    is [output_new (TxOut 4000 p2wpkh_a)].
Definition ex_all : psbt := ex_of 3 [ex_wpkh; ex_wsh; ex_sh; ex_tr; ex_bare; ex_shwsh].
(** What signing does, in brief: signatures per input, keys reported, flags. *)
Definition brief {A} (r : res A (psbt * list (N * list pubkey))) : option (list N * list (N * N) * N) :=
  match r with
  | Ok (p, u) => Some (map (fun i => blen (in_partial_sigs i)) (p_inputs p), map (fun x => (fst x, blen (snd x))) u,
                       g_tx_modifiable_flags (p_global p))
  | _ => None
  end.
(** A result is there and has the property. *)
Definition then_holds {E A} (r : res E A) (P : A -> Prop) : Prop := match r with Ok a => P a | _ => False end.
Lemma ex_wf p : psbt_deserialize (psbt_serialize p) = Ok p -> wf_psbt p.
Proof. apply deserialize_wf. Qed.

(** ** C32: output types *)

Theorem C32_output_type : forall (X : Ext) (C : Cfg) p n i u o,
  input_at p n i -> funds i u ->
  (psbt_output_type p n = Ok o <-> output_kind (to_script u) (in_redeem_script i) o).
Proof.
  intros X C p n i u o H1 H2. rewrite output_type_slot, (proj2 (slot_ok p n i u)) by auto. cbn [bind].
  rewrite <- kind_of_iff. destruct (kind_of _ _); cbn [ok_or]; split; congruence.
Qed.
Print Assumptions C32_output_type.

(** Every script has exactly one type, except the witness programs that are not assigned. *)
Theorem C32_unknown : forall (X : Ext) (C : Cfg) p n i u,
  input_at p n i -> funds i u ->
  (psbt_output_type p n = Err SEUnknownOutputType <->
   exists v g, program (to_script u) v g /\ forall h, ~ p2wpkh_hash (to_script u) h /\ ~ p2wsh_hash (to_script u) h /\ ~ p2tr_key (to_script u) h).
Proof.
  intros X C p n i u H1 H2. rewrite output_type_slot, (proj2 (slot_ok p n i u)) by auto. cbn [bind].
  transitivity (kind_of (to_script u) (in_redeem_script i) = None). { destruct (kind_of _ _); cbn [ok_or]; split; congruence. }
  unfold kind_of. split.
  - destruct (is_witness_program (to_script u)) eqn:Ew; cbn [orb negb].
    + apply is_witness_program_iff in Ew as (v & g & Hg).
      destruct (is_p2wpkh _) eqn:E1; [discriminate|]. destruct (is_p2wsh _) eqn:E2; [discriminate|].
      destruct (is_p2sh _) eqn:E3. { apply is_p2sh_iff in E3. now apply (p2sh_not_program _ v g) in E3. }
      destruct (is_p2tr _) eqn:E4; [discriminate|]. intros _. exists v, g. split; [assumption|].
      apply is_p2wpkh_false in E1. apply is_p2wsh_false in E2. apply is_p2tr_false in E4. intros h. repeat split; intros H; eauto.
    + destruct (is_p2sh (to_script u)) eqn:E3; cbn [negb]; [|discriminate].
      destruct (is_p2wpkh _); [discriminate|]. destruct (is_p2wsh _); [discriminate|].
      destruct (in_redeem_script i) as [r|]; [|discriminate]. destruct (is_p2wpkh r); [discriminate|]. destruct (is_p2wsh r); discriminate.
  - intros (v & g & Hg & Hn). rewrite (proj2 (is_witness_program_iff _)) by eauto. cbn [orb negb].
    rewrite (proj2 (is_p2wpkh_false _)) by (intros [h H]; destruct (Hn h) as (N1 & N2 & N3); contradiction).
    rewrite (proj2 (is_p2wsh_false _)) by (intros [h H]; destruct (Hn h) as (N1 & N2 & N3); contradiction).
    rewrite (proj2 (is_p2sh_false _)) by (intros H; now apply (p2sh_not_program _ v g) in H).
    now rewrite (proj2 (is_p2tr_false _)) by (intros [h H]; destruct (Hn h) as (N1 & N2 & N3); contradiction).
Qed.
Print Assumptions C32_unknown.

(** Schnorr exactly for P2TR, ECDSA exactly for the other types; nothing else, no panic. *)
Theorem C32_algorithm : forall (X : Ext) (C : Cfg) p n,
  (psbt_signing_algorithm p n = Ok AlgoSchnorr <-> exists i u k, input_at p n i /\ funds i u /\ p2tr_key (to_script u) k)
  /\ (psbt_signing_algorithm p n = Ok AlgoEcdsa <-> exists i, ecdsa_input p n i)
  /\ psbt_signing_algorithm p n <> Panic /\ psbt_output_type p n <> Panic
  /\ (forall s r o o', output_kind s r o -> output_kind s r o' -> o = o').
Proof.
  intros X C p n. split; [|split; [apply algorithm_ecdsa|split; [apply algorithm_np|split; [|intros s r o o'; apply kind_unique]]]].
  - rewrite algorithm_slot. split.
    + destruct (slot_res p n) as [[i u]| |] eqn:E; cbn [bind]; try discriminate. apply slot_ok in E as [E1 E2].
      destruct (kind_of _ _) as [[]|] eqn:Ek; try discriminate. intros _. apply kind_of_iff in Ek. inversion Ek as [| | | | | |k Hk]. eauto 6.
    + intros (i & u & k & H1 & H2 & H3). rewrite (proj2 (slot_ok p n i u)) by auto. cbn [bind].
      rewrite (proj2 (kind_of_iff _ _ _) (OKTr _ _ k H3)). reflexivity.
  - pose proof (slot_np p n) as H. rewrite output_type_slot. destruct (slot_res p n) as [[i u]| |]; cbn [bind]; try congruence.
    destruct (kind_of _ _); discriminate.
Qed.
Print Assumptions C32_algorithm.

Example C32_example : map (fun n => psbt_output_type ex_all n) [0; 1; 2; 3; 4; 5]
  = [Ok Wpkh; Ok Wsh; Ok Sh; Ok Tr; Ok Bare; Ok ShWsh]
  /\ psbt_output_type (ex_of 0 [ex_spend 0 (program_script 1 (repeat x44 20))]) 0 = Err SEUnknownOutputType.
Proof. vm_compute. auto. Qed.

(** ** C33: the message that is signed *)

Theorem C33_digest : forall (X : Ext) (C : Cfg) (S : SignExt) p n t m ty,
  n < blen (tx_input t) -> (psbt_sighash_ecdsa p n t = Ok (m, ty) <-> to_sign p t n m ty).
Proof. intros X C S. exact sighash_iff. Qed.
Print Assumptions C33_digest.

(** What is missing when it fails. *)
Theorem C33_missing : forall (X : Ext) (C : Cfg) (S : SignExt) p n t i u o,
  n < blen (tx_input t) -> input_at p n i -> funds i u -> output_kind (to_script u) (in_redeem_script i) o ->
  (psbt_sighash_ecdsa p n t = Err SEWrongSigningAlgorithm <-> o = Tr)
  /\ (psbt_sighash_ecdsa p n t = Err SEInvalidSighashType <-> o <> Tr /\ forall ty, ~ type_of_input i ty)
  /\ (psbt_sighash_ecdsa p n t = Err SEMissingRedeemScript <->
      o = Sh /\ in_redeem_script i = None /\ exists ty, type_of_input i ty)
  /\ (psbt_sighash_ecdsa p n t = Err SEMissingWitnessScript <->
      (o = Wsh \/ o = ShWsh) /\ in_witness_script i = None /\ exists ty, type_of_input i ty)
  /\ ((exists m ty, psbt_sighash_ecdsa p n t = Ok (m, ty)) <->
      (exists ty, type_of_input i ty)
      /\ match o with Tr => False | Sh => in_redeem_script i <> None | Wsh | ShWsh => in_witness_script i <> None | _ => True end)
  /\ psbt_sighash_ecdsa p n t <> Panic.
Proof.
  intros X C S p n t i u o Hn H1 H2 Ho. pose proof (sighash_np p n t Hn) as Hp.
  assert (Hty : (exists ty, type_of_input i ty) <-> input_ecdsa_hash_ty i <> None).
  { split; [intros [ty H]; apply hash_ty_iff in H; congruence|]. destruct (input_ecdsa_hash_ty i) as [ty|] eqn:E; [|congruence].
    apply hash_ty_iff in E. eauto. }
  assert (Hnt : (forall ty, ~ type_of_input i ty) <-> input_ecdsa_hash_ty i = None).
  { split; [|intros E ty H; apply hash_ty_iff in H; congruence]. intros H. destruct (input_ecdsa_hash_ty i) as [ty|] eqn:E; auto.
    apply hash_ty_iff in E. now apply H in E. }
  rewrite Hty, Hnt. clear Hty Hnt. revert Hp. rewrite sighash_slot, (proj2 (slot_ok p n i u)) by auto. cbn [bind].
  rewrite (proj2 (kind_of_iff _ _ _) Ho).
  unfold legacy_signature_hash, p2wpkh_signature_hash, p2wsh_signature_hash. replace (n <? blen (tx_input t)) with true by lia.
  assert (Hc : o = Wpkh -> p2wpkh_script_code (to_script u) <> None).
  { intros ->. inversion Ho as [|h Hh| | | | |]. rewrite (proj2 (script_code_iff _ (p2pkh_script h))) by eauto. discriminate. }
  assert (Hd : o = ShWpkh -> exists r, in_redeem_script i = Some r /\ p2wpkh_script_code r <> None).
  { intros ->. inversion Ho as [| | |r h Hh Hr Hg| | |]. exists r. split; [assumption|].
    rewrite (proj2 (script_code_iff _ (p2pkh_script h))) by eauto. discriminate. }
  destruct o; destruct (input_ecdsa_hash_ty i) as [ty|]; cbn [ok_or bind expect]; intros Hp.
  all: try (destruct (p2wpkh_script_code (to_script u)); [|now destruct (Hc eq_refl)]; cbn [ok_or bind]).
  all: try (destruct (Hd eq_refl) as (r & -> & Hr); cbn [expect bind]; destruct (p2wpkh_script_code r); [|congruence]; cbn [ok_or bind]).
  all: try (destruct (in_witness_script i); cbn [ok_or bind]).
  all: try (destruct (in_redeem_script i); cbn [ok_or bind expect]).
  all: clear; intuition (try congruence; try discriminate); eauto.
  all: try (destruct H as (? & ? & ?); discriminate).
Qed.
Print Assumptions C33_missing.

(** [sighash_ecdsa] takes the transaction from the caller: if it has fewer inputs than the PSBT, a
    legacy input panics ([expect("input checked above")]) where a segwit input is an error. *)
Theorem C33_other_transaction : forall (X : Ext) (C : Cfg) (S : SignExt) p n t,
  blen (tx_input t) <= n ->
  (psbt_sighash_ecdsa p n t = Panic <->
   exists i u ty, input_at p n i /\ funds i u /\ type_of_input i ty
     /\ (output_kind (to_script u) (in_redeem_script i) Bare
         \/ output_kind (to_script u) (in_redeem_script i) Sh /\ in_redeem_script i <> None)).
Proof.
  intros X C S p n t Hn. rewrite sighash_slot.
  unfold legacy_signature_hash, p2wpkh_signature_hash, p2wsh_signature_hash. replace (n <? blen (tx_input t)) with false by lia. split.
  - pose proof (slot_np p n) as Hnp. destruct (slot_res p n) as [[i u]| |] eqn:E; cbn [bind]; try congruence. apply slot_ok in E as [E1 E2].
    destruct (kind_of _ _) as [o|] eqn:Ek; [|discriminate]. apply kind_of_iff in Ek.
    destruct o; try discriminate; (destruct (input_ecdsa_hash_ty i) as [ty|] eqn:Et; cbn [ok_or bind]; [|discriminate]); apply hash_ty_iff in Et.
    + intros _. exists i, u, ty. auto.
    + destruct (p2wpkh_script_code _); cbn; discriminate.
    + destruct (in_witness_script i); cbn; discriminate.
    + inversion Ek as [| | |r h Hp Hr Hh| | |]. rewrite Hr. cbn [expect bind]. destruct (p2wpkh_script_code _); cbn; discriminate.
    + destruct (in_witness_script i); cbn; discriminate.
    + destruct (in_redeem_script i) eqn:Er; cbn; [|discriminate]. intros _. exists i, u, ty. rewrite <- Er in *. split; [assumption|]. split; [assumption|]. split; [assumption|]. right. split; [assumption|congruence].
  - intros (i & u & ty & H1 & H2 & H3 & H4). rewrite (proj2 (slot_ok p n i u)) by auto. cbn [bind].
    apply hash_ty_iff in H3. rewrite H3. destruct H4 as [H4|[H4 H5]]; apply kind_of_iff in H4; rewrite H4; cbn [ok_or bind]; [reflexivity|].
    destruct (in_redeem_script i); [reflexivity|congruence].
Qed.
Print Assumptions C33_other_transaction.

(** The script code of a P2WPKH output, and the missing data. *)
Example C33_example : exists t, unsigned_tx ex_all = Ok t /\ blen (tx_input t) = 6
  /\ to_sign ex_all t 0 (segwit_digest t 0 (p2pkh_script (repeat x11 20)) 5000 1) 1
  /\ psbt_sighash_ecdsa ex_all 0 t = Ok (segwit_digest t 0 (p2pkh_script (repeat x11 20)) 5000 1, 1)
  /\ psbt_sighash_ecdsa ex_all 1 t = Ok (segwit_digest t 1 [x51] 5000 131, 131)
  /\ psbt_sighash_ecdsa ex_all 2 t = Ok (legacy_digest t 2 [x52] 1, 1)
  /\ psbt_sighash_ecdsa ex_all 3 t = Err SEWrongSigningAlgorithm
  /\ psbt_sighash_ecdsa ex_all 4 t = Ok (legacy_digest t 4 (p2pkh_script (repeat x55 20)) 1, 1)
  /\ psbt_sighash_ecdsa ex_all 5 t = Ok (segwit_digest t 5 [x53] 5000 1, 1)
  /\ psbt_sighash_ecdsa ex_all 4 (Tx 2 0 [] []) = Panic.
Proof.
  eexists. split; [vm_compute; reflexivity|]. split; [vm_compute; reflexivity|]. split.
  - apply sighash_iff; [vm_compute; reflexivity|]. vm_compute. reflexivity.
  - vm_compute. auto 8.
Qed.

(** ** C30: what signing changes *)

Theorem C30_sign : forall (X : Ext) (C : Cfg) (S : SignExt) k p p' used,
  signer_sign k p = Ok (p', used) ->
  exists t, unsigned_tx p = Ok t /\ same_but_signed p p'
  /\ (forall n i i', nth_error (p_inputs p) (N.to_nat n) = Some i -> nth_error (p_inputs p') (N.to_nat n) = Some i' ->
        (ecdsa_input p n i
         /\ exists m ty sks, to_sign p t n m ty /\ keys_for k (in_bip32_derivations i) sks
              /\ signatures_added sks m ty i i' /\ In (n, map public_of sks) used)
        \/ (~ ecdsa_input p n i) /\ i' = i /\ forall ks, ~ In (n, ks) used)
  /\ StronglySorted N.lt (map fst used) /\ Forall (fun n => n < blen (p_inputs p)) (map fst used).
Proof.
  intros X C S k p p' used H.
  assert (Ht : exists t, unsigned_tx p = Ok t).
  { unfold signer_sign, signer_unsigned_tx in H. destruct (unsigned_tx p) as [t| |]; cbn in H; try discriminate. eauto. }
  destruct Ht as [t Ht]. exists t. split; [assumption|]. rewrite (signer_sign_eq k p t Ht) in H.
  destruct (existsb (panics k t p) (input_indices p)) eqn:Ep; [discriminate|].
  destruct (flat_map (error_of k t p) (input_indices p)) eqn:Ee; [|discriminate]. inj H. injection H as <- <-.
  assert (Hu : forall n ks, In (n, ks) (flat_map (used_of k t p) (input_indices p)) <->
                 In n (input_indices p) /\ exists m ty sks, outcome_of k t p n = Signed m ty sks /\ ks = map public_of sks).
  { intros n ks. rewrite in_flat_map. unfold used_of. split.
    - intros (a & Ha & Hin). destruct (outcome_of k t p a) eqn:Eo; try contradiction. destruct Hin as [[= <- <-]|[]]. eauto 6.
    - intros (Ha & m & ty & sks & Eo & ->). exists n. rewrite Eo. cbn. auto. }
  split; [apply signed_psbt_same|]. split; [|split].
  - intros n i i' Hi Hi'. rewrite signed_psbt_nth, Hi in Hi'. cbn [option_map] in Hi'. apply Some_inj in Hi'. subst i'.
    assert (Hn : n < blen (p_inputs p)).
    { assert (Hx : nth_error (p_inputs p) (N.to_nat n) <> None) by congruence. apply nth_error_Some in Hx. unfold blen. lia. }
    apply input_indices_in in Hn as Hin. rewrite <- (unsigned_inputs _ _ Ht) in Hn. unfold sign_outcome.
    destruct (outcome_of k t p n) as [|e| |m ty sks] eqn:Eo.
    + right. split; [|split; [reflexivity|intros ks Hks; apply Hu in Hks as (_ & m & ty & sks & E & _); congruence]].
      intros He. assert (Ha : psbt_signing_algorithm p n = Ok AlgoEcdsa) by (apply algorithm_ecdsa; eauto).
      unfold outcome_of in Eo. rewrite Ha, Hi in Eo. destruct (psbt_sighash_ecdsa p n t) as [[]| |]; try discriminate. destruct (is_empty _); discriminate.
    + exfalso. assert (Hf : In (n, e) (flat_map (error_of k t p) (input_indices p))).
      { apply in_flat_map. exists n. split; [assumption|]. unfold error_of. rewrite Eo. now left. } rewrite Ee in Hf. contradiction.
    + exfalso. assert (Hf : existsb (panics k t p) (input_indices p) = true).
      { apply existsb_exists. exists n. split; [assumption|]. unfold panics. now rewrite Eo. } congruence.
    + left. destruct (outcome_ty k t p n m ty sks Hn Eo) as (j & Hj & He & Hs & _ & Hk). assert (j = i) by congruence. subst j.
      split; [assumption|]. exists m, ty, sks. split; [assumption|]. split; [assumption|].
      split; [intros pk s; apply add_sigs_get|]. apply Hu. eauto 7.
  - unfold input_indices. generalize 0%nat. induction (length (p_inputs p)) as [|l IH]; intros a; cbn [seq map flat_map]; [constructor|].
    rewrite map_app. unfold used_of at 1. destruct (outcome_of k t p (N.of_nat a)); cbn [map app fst]; try apply IH.
    constructor; [apply IH|]. apply Forall_forall. intros x Hx. apply in_map_iff in Hx as ([x' ks] & <- & Hx).
    apply in_flat_map in Hx as (b & Hb & Hx). apply in_map_iff in Hb as (b' & <- & Hb). apply in_seq in Hb.
    unfold used_of in Hx. destruct (outcome_of k t p (N.of_nat b')); try contradiction. destruct Hx as [[= <- _]|[]]. cbn [fst]. lia.
  - apply Forall_forall. intros x Hx. apply in_map_iff in Hx as ([n ks] & <- & Hx). apply Hu in Hx as [Hx _]. now apply input_indices_in.
Qed.
Print Assumptions C30_sign.

(** The signatures verify: for every signature of the result, it was there before or it is a
    signature of the message for that input under that key, with the type of the input. *)
Theorem C30_verifies : forall (X : Ext) (C : Cfg) (S : SignExt) (L : SignLaws X S) k p p' used n i i' pk s,
  signer_sign k p = Ok (p', used) ->
  nth_error (p_inputs p) (N.to_nat n) = Some i -> nth_error (p_inputs p') (N.to_nat n) = Some i' ->
  m_get sk_pubkey pk (in_partial_sigs i') = Some s ->
  m_get sk_pubkey pk (in_partial_sigs i) = Some s
  \/ exists t m, unsigned_tx p = Ok t /\ to_sign p t n m (es_type s) /\ type_of_input i (es_type s)
       /\ verify_ecdsa (pub_inner pk) m (es_der s) = true.
Proof.
  intros X C S L k p p' used n i i' pk s H Hi Hi' Hg. destruct (C30_sign X C S k p p' used H) as (t & Ht & _ & Hn & _).
  destruct (Hn n i i' Hi Hi') as [(He & m & ty & sks & Hs & Hk & Ha & _)|(_ & -> & _)]; [|now left].
  apply Ha in Hg as [Hg|[_ Hg]]; [right|now left]. destruct Hg as (l1 & sk & l2 & _ & <- & _ & ->). exists t, m. cbn [es_type es_der public_of pub_inner].
  repeat split; auto; try apply sign_verifies.
  - destruct Hs as (i0 & u & [Hi0 _] & _ & [Hty _] & _). assumption.
  - destruct Hs as (i0 & u & [Hi0 _] & _ & [_ Hty] & _). congruence.
Qed.
Print Assumptions C30_verifies.

(** When signing succeeds, and which errors are reported. *)
Theorem C30_succeeds : forall (X : Ext) (C : Cfg) (S : SignExt) k p t,
  unsigned_tx p = Ok t ->
  ((exists p' used, signer_sign k p = Ok (p', used)) <->
   forall n i, ecdsa_input p n i -> exists m ty, to_sign p t n m ty).
Proof.
  intros X C S k p t Ht. rewrite (signer_sign_eq k p t Ht). split.
  - destruct (existsb (panics k t p) (input_indices p)) eqn:Ep; [intros (? & ? & ?); discriminate|].
    destruct (flat_map (error_of k t p) (input_indices p)) eqn:Ee; [|intros (? & ? & ?); discriminate]. intros _ n i Hi.
    pose proof Hi as [[Hx _] _].
    assert (Hn : n < blen (p_inputs p)).
    { assert (Hy : nth_error (p_inputs p) (N.to_nat n) <> None) by congruence. apply nth_error_Some in Hy. unfold blen. lia. }
    apply input_indices_in in Hn as Hin. rewrite <- (unsigned_inputs _ _ Ht) in Hn.
    assert (Ha : psbt_signing_algorithm p n = Ok AlgoEcdsa) by (apply algorithm_ecdsa; eauto).
    destruct (outcome_of k t p n) as [|e| |m ty sks] eqn:Eo.
    + unfold outcome_of in Eo. rewrite Ha, Hx in Eo. destruct (psbt_sighash_ecdsa p n t) as [[]| |]; try discriminate. destruct (is_empty _); discriminate.
    + exfalso. assert (Hf : In (n, e) (flat_map (error_of k t p) (input_indices p))).
      { apply in_flat_map. exists n. split; [assumption|]. unfold error_of. rewrite Eo. now left. } rewrite Ee in Hf. contradiction.
    + exfalso. assert (Hf : existsb (panics k t p) (input_indices p) = true).
      { apply existsb_exists. exists n. split; [assumption|]. unfold panics. now rewrite Eo. } congruence.
    + destruct (outcome_ty k t p n m ty sks Hn Eo) as (j & _ & _ & Hs & _). eauto.
  - intros H.
    assert (Ho : forall n, In n (input_indices p) -> outcome_of k t p n = Skipped \/ exists m ty sks, outcome_of k t p n = Signed m ty sks).
    { intros n Hn. apply input_indices_in in Hn. rewrite <- (unsigned_inputs _ _ Ht) in Hn. unfold outcome_of.
      destruct (psbt_signing_algorithm p n) as [[]| |] eqn:Ea; auto. apply algorithm_ecdsa in Ea as [i Hi].
      destruct (H n i Hi) as (m & ty & Hs). apply (sighash_iff p n t m ty Hn) in Hs. rewrite Hs.
      destruct (nth_error (p_inputs p) (N.to_nat n)); eauto. }
    assert (Hp : existsb (panics k t p) (input_indices p) = false).
    { apply Bool.not_true_iff_false. rewrite existsb_exists. intros (n & Hn & Hp). unfold panics in Hp.
      destruct (Ho n Hn) as [E|(m & ty & sks & E)]; rewrite E in Hp; discriminate. }
    assert (He : flat_map (error_of k t p) (input_indices p) = []).
    { destruct (flat_map (error_of k t p) (input_indices p)) as [|x l] eqn:E; [reflexivity|exfalso].
      assert (Hx : In x (flat_map (error_of k t p) (input_indices p))) by (rewrite E; now left).
      apply in_flat_map in Hx as (n & Hn & Hx). unfold error_of in Hx.
      destruct (Ho n Hn) as [E'|(m & ty & sks & E')]; rewrite E' in Hx; contradiction. }
    rewrite Hp, He. eauto.
Qed.
Print Assumptions C30_succeeds.

(** An error is reported for exactly the inputs whose message cannot be computed (if there is a
    key for each of them; see C31 for the others). *)
Theorem C30_errors : forall (X : Ext) (C : Cfg) (S : SignExt) k p t used errs,
  unsigned_tx p = Ok t -> signer_sign k p = Err (used, errs) ->
  errs <> []
  /\ (forall n e, In (n, e) errs <->
        exists i, ecdsa_input p n i /\ psbt_sighash_ecdsa p n t = Err e
                  /\ ~ keys_for k (in_bip32_derivations i) [])
  /\ (forall n ks, In (n, ks) used <->
        exists i m ty sks, ecdsa_input p n i /\ to_sign p t n m ty /\ keys_for k (in_bip32_derivations i) sks /\ ks = map public_of sks).
Proof.
  intros X C S k p t used errs Ht H. rewrite (signer_sign_eq k p t Ht) in H.
  destruct (existsb (panics k t p) (input_indices p)) eqn:Ep; [discriminate|].
  assert (Hs : errs <> [] /\ errs = flat_map (error_of k t p) (input_indices p) /\ used = flat_map (used_of k t p) (input_indices p)).
  { destruct (flat_map (error_of k t p) (input_indices p)); [discriminate|]. injection H as <- <-. repeat split. discriminate. }
  destruct Hs as (H0 & -> & ->). split; [assumption|]. clear H H0.
  assert (Hidx : forall n i, ecdsa_input p n i -> In n (input_indices p) /\ n < blen (tx_input t) /\ nth_error (p_inputs p) (N.to_nat n) = Some i
                   /\ psbt_signing_algorithm p n = Ok AlgoEcdsa).
  { intros n i Hi. pose proof Hi as [[Hx _] _].
    assert (Hn : n < blen (p_inputs p)).
    { assert (Hy : nth_error (p_inputs p) (N.to_nat n) <> None) by congruence. apply nth_error_Some in Hy. unfold blen. lia. }
    split; [now apply input_indices_in|]. split; [now rewrite (unsigned_inputs _ _ Ht)|]. split; [assumption|]. apply algorithm_ecdsa. eauto. }
  split.
  - intros n e. rewrite in_flat_map. split.
    + intros (a & Ha & Hin). unfold error_of in Hin. destruct (outcome_of k t p a) eqn:Eo; try contradiction. destruct Hin as [[= <- <-]|[]].
      unfold outcome_of in Eo. destruct (psbt_signing_algorithm p a) as [[]| |] eqn:Ea; try discriminate. apply algorithm_ecdsa in Ea as [i Hi].
      destruct (Hidx a i Hi) as (_ & _ & Hx & _). rewrite Hx in Eo. exists i. split; [assumption|].
      destruct (psbt_sighash_ecdsa p a t) as [[]|e'|]; try discriminate. destruct (is_empty (found k _)) eqn:Ef; [discriminate|]. injection Eo as ->.
      split; [reflexivity|]. intros Hk. apply found_iff in Hk. now rewrite Hk in Ef.
    + intros (i & Hi & Hs & Hk). destruct (Hidx n i Hi) as (Hin & _ & Hx & Ha). exists n. split; [assumption|]. unfold error_of, outcome_of.
      rewrite Ha, Hx, Hs. destruct (is_empty (found k _)) eqn:Ef; [|now left]. exfalso. apply Hk. apply found_iff.
      now destruct (found k (in_bip32_derivations i)).
  - intros n ks. rewrite in_flat_map. split.
    + intros (a & Ha & Hin). unfold used_of in Hin. destruct (outcome_of k t p a) as [|e| |m ty sks] eqn:Eo; try contradiction. destruct Hin as [[= <- <-]|[]].
      apply input_indices_in in Ha. rewrite <- (unsigned_inputs _ _ Ht) in Ha.
      destruct (outcome_ty k t p a m ty sks Ha Eo) as (i & _ & He & Hs & _ & Hk). exists i, m, ty, sks. auto.
    + intros (i & m & ty & sks & Hi & Hs & Hk & ->). destruct (Hidx n i Hi) as (Hin & Hn & Hx & Ha). exists n. split; [assumption|]. unfold used_of, outcome_of.
      apply (sighash_iff p n t m ty Hn) in Hs. rewrite Ha, Hx, Hs. apply found_iff in Hk. rewrite Hk. now left.
Qed.
Print Assumptions C30_errors.

Example C30_example :
  brief (signer_sign (ex_keys [ex_sec_a; ex_sec_b]) ex_all)
    = Some ([2; 2; 2; 0; 2; 2], [(0, 2); (1, 2); (2, 2); (4, 2); (5, 2)], 4)
  /\ brief (signer_sign (ex_keys [ex_sec_b]) ex_all)
    = Some ([1; 1; 1; 0; 1; 1], [(0, 1); (1, 1); (2, 1); (4, 1); (5, 1)], 4)
  /\ signer_sign (ex_keys [ex_sec_a]) (ex_of 3 [set_in_witness_script None ex_wsh; ex_wpkh])
    = Err ([(1, [PubKey true (ex_pk ex_sec_a)])], [(0, SEMissingWitnessScript)]).
Proof. vm_compute. auto. Qed.

(** ** C22: the flags after signing *)

Theorem C22_sign : forall (X : Ext) (C : Cfg) (S : SignExt) k p p' used,
  signer_sign k p = Ok (p', used) ->
  flags_after (fun ty => exists n i, ecdsa_input p n i /\ type_of_input i ty)
    (g_tx_modifiable_flags (p_global p)) (g_tx_modifiable_flags (p_global p')).
Proof.
  intros X C S k p p' used H.
  assert (Ht : exists t, unsigned_tx p = Ok t).
  { unfold signer_sign, signer_unsigned_tx in H. destruct (unsigned_tx p) as [t| |]; cbn in H; try discriminate. eauto. }
  destruct Ht as [t Ht].
  assert (Hs : forall n i, ecdsa_input p n i -> exists m ty, to_sign p t n m ty) by (apply (C30_succeeds X C S k p t Ht); eauto).
  rewrite (signer_sign_eq k p t Ht) in H. destruct (existsb _ _); [discriminate|]. destruct (flat_map _ _); [|discriminate]. inj H. injection H as <- _.
  eapply fa_ext; [|exact (signed_psbt_flags k t p Ht)]. intros ty. unfold signed_types. split.
  - intros (n & m & sks & Hn & Ho). apply input_indices_in in Hn. rewrite <- (unsigned_inputs _ _ Ht) in Hn.
    destruct (outcome_ty k t p n m ty sks Hn Ho) as (i & _ & He & _ & Hty & _). eauto.
  - intros (n & i & He & Hty). destruct (Hs n i He) as (m & ty' & Hm). pose proof He as [[Hx _] _].
    assert (Hn : n < blen (p_inputs p)).
    { assert (Hy : nth_error (p_inputs p) (N.to_nat n) <> None) by congruence. apply nth_error_Some in Hy. unfold blen. lia. }
    assert (ty' = ty). { destruct Hm as (j & u & Hj & _ & Hj' & _). destruct He as [Hi _]. rewrite (input_at_fun _ _ _ _ Hj Hi) in Hj'. now apply (type_fun i). }
    subst ty'. exists n, m, (found k (in_bip32_derivations i)). split; [now apply input_indices_in|]. rewrite <- (unsigned_inputs _ _ Ht) in Hn.
    apply (sighash_iff p n t m ty Hn) in Hm. unfold outcome_of. rewrite (proj2 (algorithm_ecdsa p n)) by eauto. now rewrite Hx, Hm.
Qed.
Print Assumptions C22_sign.

Example C22_sign_example :
  map (fun ty => option_map snd (brief (signer_sign (ex_keys [ex_sec_a]) (ex_of 3 [set_in_sighash_type ty ex_wpkh; set_in_sighash_type (Some 130) ex_sh]))))
    [None; Some 1; Some 2; Some 3; Some 129; Some 130; Some 131]
  = map Some [0; 0; 2; 4; 1; 3; 5].
Proof. vm_compute. reflexivity. Qed.

(** ** C31: panics *)

Theorem C31_panics_exactly : forall (X : Ext) (C : Cfg) (S : SignExt) k p t,
  unsigned_tx p = Ok t ->
  (signer_sign k p = Panic <->
   exists n i, ecdsa_input p n i /\ (forall m ty, ~ to_sign p t n m ty) /\ keys_for k (in_bip32_derivations i) []).
Proof.
  intros X C S k p t Ht. rewrite (signer_sign_eq k p t Ht). split.
  - destruct (existsb (panics k t p) (input_indices p)) eqn:Ep; [intros _|destruct (flat_map _ _); discriminate].
    apply existsb_exists in Ep as (n & Hin & Hp). apply input_indices_in in Hin. rewrite <- (unsigned_inputs _ _ Ht) in Hin.
    unfold panics, outcome_of in Hp. destruct (psbt_signing_algorithm p n) as [[]| |] eqn:Ea; try discriminate.
    apply algorithm_ecdsa in Ea as [i Hi]. pose proof Hi as [[Hx _] _]. rewrite Hx in Hp. exists n, i. split; [assumption|].
    pose proof (sighash_np p n t Hin) as Hnp.
    destruct (psbt_sighash_ecdsa p n t) as [[]|e|] eqn:Es; try discriminate; [|congruence].
    split. { intros m ty Hm. apply (sighash_iff p n t m ty Hin) in Hm. congruence. }
    apply found_iff. now destruct (found k (in_bip32_derivations i)).
  - intros (n & i & Hi & Hm & Hk). pose proof Hi as [[Hx _] _].
    assert (Hn : n < blen (p_inputs p)).
    { assert (Hy : nth_error (p_inputs p) (N.to_nat n) <> None) by congruence. apply nth_error_Some in Hy. unfold blen. lia. }
    replace (existsb (panics k t p) (input_indices p)) with true; [reflexivity|]. symmetry. apply existsb_exists. exists n.
    split; [now apply input_indices_in|]. rewrite <- (unsigned_inputs _ _ Ht) in Hn. unfold panics, outcome_of.
    rewrite (proj2 (algorithm_ecdsa p n)) by eauto. rewrite Hx. apply found_iff in Hk. rewrite Hk. cbn [is_empty].
    destruct (psbt_sighash_ecdsa p n t) as [[m ty]|e|] eqn:Es; auto. apply (sighash_iff p n t m ty Hn) in Es. now apply Hm in Es.
Qed.
Print Assumptions C31_panics_exactly.

(** The property is false: a P2WSH input without its witness script and a signer that has no key
    for it, which is the normal case of a PSBT with several participants. *)
Theorem C31_refuted : forall (X : Ext) (C : Cfg) (S : SignExt), exists p,
  signer_new p = Ok p /\ forall k, (forall r, k r = inr None) -> signer_sign k p = Panic.
Proof.
  intros X C S. set (p := ex_of 3 [set_in_witness_script None ex_wsh]). exists p. split; [reflexivity|].
  intros k Hk. assert (Ht : exists t, unsigned_tx p = Ok t /\ psbt_sighash_ecdsa p 0 t = Err SEMissingWitnessScript)
    by (eexists; split; reflexivity). destruct Ht as (t & Ht & Hs).
  apply (C31_panics_exactly X C S k p t Ht). exists 0, (set_in_witness_script None ex_wsh). split; [|split].
  - split; [split; reflexivity|]. exists (TxOut 5000 (program_script 0 (repeat x22 32))), Wsh.
    split; [apply funding_ok_iff; reflexivity|]. split; [|discriminate]. apply kind_of_iff. reflexivity.
  - intros m ty Hm. apply sighash_iff in Hm; [congruence|]. rewrite (unsigned_inputs _ _ Ht). reflexivity.
  - apply found_iff. cbn [found in_bip32_derivations set_in_witness_script ex_wsh ex_spend set_in_sighash_type set_in_bip32_derivations m_put].
    unfold find_key. vm_compute. now rewrite !Hk.
Qed.
Print Assumptions C31_refuted.

(** It is a PSBT that deserializes. *)
Example C31_example :
  let p := ex_of 3 [ex_wpkh; set_in_witness_script None ex_wsh] in
  psbt_deserialize (psbt_serialize p) = Ok p /\ signer_sign (ex_keys []) p = Panic
  /\ signer_sign (ex_keys [ex_sec_a]) p = Err ([(0, [PubKey true (ex_pk ex_sec_a)])], [(1, SEMissingWitnessScript)]).
Proof. vm_compute. auto. Qed.

(** ** C34: sets of extended keys *)

(** What a set finds: the first member whose PARENT has the fingerprint, derived. *)
Theorem C34_exact : forall (S : SignExt) l s sk,
  set_get_key l (KRBip32 s) = inr (Some sk) <->
  exists l1 x l2 y, l = l1 ++ x :: l2 /\ xprv_parent_fingerprint x = ks_fp s
    /\ (forall z, In z l1 -> xprv_parent_fingerprint z <> ks_fp s)
    /\ xprv_derive x (ks_path s) = Some y /\ sk = xprv_to_priv y.
Proof.
  intros S l s sk. unfold set_get_key. induction l as [|a l IH]; cbn [find].
  - split; [discriminate|]. intros (l1 & x & l2 & y & H & _). destruct l1; discriminate.
  - destruct (bytes_eqb (xprv_parent_fingerprint a) (ks_fp s)) eqn:E.
    + apply bytes_eqb_eq in E. split.
      * destruct (xprv_derive a (ks_path s)) as [y|] eqn:Ed; intros [= <-]. exists [], a, l, y. repeat split; auto.
      * intros (l1 & x & l2 & y & H & H1 & H2 & H3 & ->). destruct l1 as [|b l1].
        -- injection H as <- <-. now rewrite H3.
        -- injection H as <- ->. exfalso. apply (H2 a); [now left|assumption].
    + assert (Hne : xprv_parent_fingerprint a <> ks_fp s) by (intros H; apply bytes_eqb_eq in H; congruence). rewrite IH. split.
      * intros (l1 & x & l2 & y & -> & H1 & H2 & H3 & H4). exists (a :: l1), x, l2, y. repeat split; auto. intros z [<-|Hz]; auto.
      * intros (l1 & x & l2 & y & H & H1 & H2 & H3 & H4). destruct l1 as [|b l1]; [cbn in H; congruence|]. injection H as <- ->.
        exists l1, x, l2, y. repeat split; auto. intros z Hz. apply H2. now right.
Qed.
Print Assumptions C34_exact.

(** So a master key, which finds its keys alone, finds nothing as a member of a set. *)
Theorem C34_refuted : exists (S : SignExt) x s sk,
  xprv_get_key x (KRBip32 s) = inr (Some sk) /\ set_get_key [x] (KRBip32 s) = inr None.
Proof.
  set (m := ToyXprv [x05] [] [x00; x00; x00; x00]).
  exists toy_sign, m, (KeySource (toy_fp [x05] []) [7; 8]), (@xprv_to_priv toy_sign (ToyXprv [x05] [7; 8] (toy_fp [x05] [7]))).
  vm_compute. auto.
Qed.
Print Assumptions C34_refuted.

(** A set of master keys (their parent fingerprint is zero) finds no key for any other fingerprint. *)
Theorem C34_masters : forall (S : SignExt) l s,
  (forall x, In x l -> xprv_parent_fingerprint x = [x00; x00; x00; x00]) -> ks_fp s <> [x00; x00; x00; x00] ->
  set_get_key l (KRBip32 s) = inr None.
Proof.
  intros S l s Hl Hs. unfold set_get_key. destruct (find _ l) as [z|] eqn:E; [exfalso|reflexivity].
  apply find_some in E as [E1 E2]. apply bytes_eqb_eq in E2. rewrite (Hl z E1) in E2. now symmetry in E2.
Qed.
Print Assumptions C34_masters.

(** A single extended key answers exactly the requests under its own fingerprint. *)
Theorem C34_single : forall (S : SignExt) x s sk,
  (xprv_get_key x (KRBip32 s) = inr (Some sk) <->
     xprv_fingerprint x = ks_fp s /\ exists y, xprv_derive x (ks_path s) = Some y /\ sk = xprv_to_priv y) /\
  (xprv_get_key x (KRBip32 s) = inr None <-> xprv_fingerprint x <> ks_fp s).
Proof.
  intros S x s sk. unfold xprv_get_key. destruct (bytes_eqb (xprv_fingerprint x) (ks_fp s)) eqn:E.
  - apply bytes_eqb_eq in E. split.
    + destruct (xprv_derive x (ks_path s)) as [y|]; split.
      * intros [= <-]. eauto.
      * intros (_ & y' & [= <-] & ->). reflexivity.
      * discriminate.
      * intros (_ & y' & [=] & _).
    + destruct (xprv_derive x (ks_path s)); split; (discriminate || contradiction).
  - apply bytes_eqb_neq in E. split; [split; [discriminate|intros [H _]; contradiction]|split; auto].
Qed.
Print Assumptions C34_single.

(** A map of keys answers exactly the requests by public key that it has an entry for. *)
Theorem C34_map : forall (S : SignExt) m pk sk, m_sorted sk_pubkey m ->
  (map_get_key m (KRPubkey pk) = inr (Some sk) <-> In (pk, sk) m) /\
  (map_get_key m (KRPubkey pk) = inr None <-> ~ In pk (map fst m)).
Proof.
  intros S m pk sk Hm. unfold map_get_key. split.
  - split.
    + intros [= H]. now apply (m_get_in sk_pubkey sk_pubkey_inj).
    + intros H. now rewrite (m_in_get sk_pubkey _ _ _ Hm H).
  - split.
    + intros [= H] Hin. apply in_map_iff in Hin as ([k v] & <- & Hin). cbn [fst] in H.
      rewrite (m_in_get sk_pubkey _ _ _ Hm Hin) in H. discriminate.
    + intros H. destruct (m_get sk_pubkey pk m) as [v|] eqn:E; [exfalso|reflexivity].
      apply (m_get_in sk_pubkey sk_pubkey_inj) in E. apply H, in_map_iff. exists (pk, v). auto.
Qed.
Print Assumptions C34_map.

Example C34_example :
  let m : @xprv toy_sign := ToyXprv [x05] [] [x00; x00; x00; x00] in
  let c : @xprv toy_sign := ToyXprv [x05] [7] (toy_fp [x05] []) in
  set_get_key [m; c] (KRBip32 (KeySource (toy_fp [x05] []) [8])) = inr (Some (@xprv_to_priv toy_sign (ToyXprv [x05] [7; 8] [])))
  /\ set_get_key [m] (KRBip32 (KeySource (toy_fp [x05] []) [8])) = inr None
  /\ xprv_get_key m (KRBip32 (KeySource (toy_fp [x05] []) [8])) <> inr None.
Proof. vm_compute. repeat split; discriminate. Qed.

(** ** C50: signature types *)

Lemma check_sigs_ok : forall n ty l, In ty [1; 2; 3; 129; 130; 131] ->
  (check_sigs n ty l = Ok tt <-> forall k s, In (k, s) l -> es_type s = ty).
Proof.
  intros n ty l Hty. induction l as [|[k s] l IH]; cbn [check_sigs]; [split; [intros _ k s []|reflexivity]|]. split.
  - intros H. apply bind_ok in H as (f & Hf & H). destruct (ecdsa_from_standard (es_type s)) as [f'|] eqn:Ef; [|discriminate].
    apply ecdsa_std_iff in Ef as [-> _]. inj Hf. apply bind_ok in H as (? & He & H).
    assert (E : (ty =? es_type s) = true) by (destruct (ty =? es_type s); [reflexivity|discriminate]).
    intros k' s' [[= <- <-]|Hin]; [lia|]. exact (proj1 IH H k' s' Hin).
  - intros H. assert (E : es_type s = ty) by (apply (H k s); now left).
    rewrite (proj2 (ecdsa_std_iff (es_type s) ty)) by (split; [now symmetry|now rewrite E]). cbn [ok_or bind]. rewrite N.eqb_refl. cbn [negb fail_if bind].
    apply IH. intros k' s' Hin. apply (H k' s'). now right.
Qed.
Lemma check_inputs_ok : forall l n, check_inputs_sigs n l = Ok tt <-> Forall sigs_match l.
Proof.
  induction l as [|i l IH]; intros n; cbn [check_inputs_sigs]; [split; auto|]. rewrite Forall_cons_iff, <- (IH (n + 1)).
  assert (Ht : forall target, match in_sighash_type i with Some m => ok_or (ecdsa_from_standard m) (PSNonStandardInput n m) | None => Ok SIGHASH_ALL end = Ok target
                <-> type_of_input i target).
  { intros target. rewrite <- hash_ty_iff. unfold input_ecdsa_hash_ty. destruct (in_sighash_type i) as [m|].
    - destruct (ecdsa_from_standard m); cbn [ok_or]; split; congruence.
    - split; congruence. }
  split.
  - intros H. apply bind_ok in H as (ty & Hty & H). apply Ht in Hty. apply bind_ok in H as ([] & Hs & H). split; [|assumption].
    exists ty. split; [assumption|]. apply (check_sigs_ok n ty); [apply Hty|assumption].
  - intros [(ty & Hty & Hs) H]. rewrite (proj2 (Ht ty) Hty). cbn [bind]. rewrite (proj2 (check_sigs_ok n ty _ (proj1 Hty)) Hs). exact H.
Qed.

Theorem C50_check : forall p, check_partial_sigs_sighash_type p = Ok tt <-> Forall sigs_match (p_inputs p).
Proof. intros p. apply check_inputs_ok. Qed.
Print Assumptions C50_check.

(** What an error says about the input it names. *)
Inductive offence (i : input) (n : N) : psigerr -> Prop :=
| OffInput ty : in_sighash_type i = Some ty -> ~ In ty [1; 2; 3; 129; 130; 131] -> offence i n (PSNonStandardInput n ty)
| OffSig ty k s : type_of_input i ty -> In (k, s) (in_partial_sigs i) -> ~ In (es_type s) [1; 2; 3; 129; 130; 131] ->
    offence i n (PSNonStandardPartialSig n (es_type s))
| OffFlag ty k s : type_of_input i ty -> In (k, s) (in_partial_sigs i) -> es_type s <> ty ->
    offence i n (PSWrongFlag n ty (es_type s) k).
Lemma check_sigs_err : forall n i ty l e, type_of_input i ty -> incl l (in_partial_sigs i) -> check_sigs n ty l = Err e -> offence i n e.
Proof.
  intros n i ty l e Hty. induction l as [|[k s] l IH]; cbn [check_sigs]; [discriminate|]. intros Hl.
  assert (Hks : In (k, s) (in_partial_sigs i)) by (apply Hl; now left).
  destruct (ecdsa_from_standard (es_type s)) as [f|] eqn:Ef; cbn [ok_or bind].
  - apply ecdsa_std_iff in Ef as [-> Hstd]. destruct (ty =? es_type s) eqn:E; cbn [negb fail_if bind].
    + apply IH. intros x Hx. apply Hl. now right.
    + intros [= <-]. apply (OffFlag i n ty k s); auto. intros H. rewrite H, N.eqb_refl in E. discriminate.
  - intros [= <-]. apply (OffSig i n ty k s); auto. intros H. rewrite (proj2 (ecdsa_std_iff _ _) (conj eq_refl H)) in Ef. discriminate.
Qed.
Lemma check_inputs_err : forall l n e, check_inputs_sigs n l = Err e ->
  exists l1 i l2, l = l1 ++ i :: l2 /\ Forall sigs_match l1 /\ ~ sigs_match i /\ offence i (n + blen l1) e.
Proof.
  induction l as [|i l IH]; intros n e; cbn [check_inputs_sigs]; [discriminate|]. intros H.
  destruct (check_inputs_sigs n [i]) as [[]|e'|] eqn:E.
  - apply check_inputs_ok in E as Em. apply Forall_cons_iff in Em as [Em _].
    cbn [check_inputs_sigs] in E. apply bind_ok in E as (ty & Hty & E). apply bind_ok in E as ([] & Hs & _).
    rewrite Hty in H. cbn [bind] in H. rewrite Hs in H. cbn [bind] in H.
    destruct (IH _ _ H) as (l1 & j & l2 & -> & H1 & H2 & H3). exists (i :: l1), j, l2. split; [reflexivity|]. split; [now constructor|]. split; [assumption|].
    replace (n + blen (i :: l1)) with (n + 1 + blen l1) by (unfold blen; cbn [length]; lia). exact H3.
  - exists [], i, l. split; [reflexivity|]. split; [constructor|]. split.
    { intros Hm. assert (Hx : check_inputs_sigs n [i] = Ok tt) by (apply check_inputs_ok; auto). congruence. }
    unfold blen. cbn [length N.of_nat]. rewrite N.add_0_r. cbn [check_inputs_sigs] in E.
    assert (e' = e).
    { destruct (match in_sighash_type i with Some m => ok_or (ecdsa_from_standard m) (PSNonStandardInput n m) | None => Ok SIGHASH_ALL end); cbn [bind] in *; try congruence.
      destruct (check_sigs n _ (in_partial_sigs i)); cbn [bind] in *; congruence. }
    subst e'. clear H. destruct (in_sighash_type i) as [m|] eqn:Em.
    + destruct (ecdsa_from_standard m) as [ty|] eqn:Et; cbn [ok_or bind] in E.
      * assert (Hty : type_of_input i ty) by (apply hash_ty_iff; unfold input_ecdsa_hash_ty; now rewrite Em).
        destruct (check_sigs n ty (in_partial_sigs i)) as [[]|e'|] eqn:Es; cbn [bind] in E; try discriminate. injection E as ->.
        exact (check_sigs_err n i ty _ e Hty (incl_refl _) Es).
      * injection E as <-. apply OffInput; [assumption|]. intros Hi. rewrite (proj2 (ecdsa_std_iff _ _) (conj eq_refl Hi)) in Et. discriminate.
    + cbn [bind] in E. assert (Hty : type_of_input i SIGHASH_ALL) by (apply hash_ty_iff; unfold input_ecdsa_hash_ty; now rewrite Em).
      destruct (check_sigs n SIGHASH_ALL (in_partial_sigs i)) as [[]|e'|] eqn:Es; cbn [bind] in E; try discriminate. injection E as ->.
      exact (check_sigs_err n i _ _ e Hty (incl_refl _) Es).
  - exfalso. cbn [check_inputs_sigs] in E. destruct (in_sighash_type i) as [m|]; [destruct (ecdsa_from_standard m)|]; cbn [ok_or bind] in E; try discriminate.
    all: match type of E with context[check_sigs ?a ?b ?l] => assert (Hnp : forall l', check_sigs a b l' <> Panic) end;
      [induction l' as [|[k s] l' IHl]; cbn [check_sigs]; [discriminate|]; destruct (ecdsa_from_standard (es_type s)); cbn [ok_or bind]; [|discriminate];
       destruct (negb _); cbn [fail_if bind]; [discriminate|exact IHl]|].
    all: match type of E with context[check_sigs ?a ?b ?l] => specialize (Hnp l); destruct (check_sigs a b l) as [[]| |]; cbn [bind] in E; congruence end.
Qed.
Theorem C50_first : forall p e, check_partial_sigs_sighash_type p = Err e ->
  exists l1 i l2, p_inputs p = l1 ++ i :: l2 /\ Forall sigs_match l1 /\ ~ sigs_match i /\ offence i (blen l1) e.
Proof. intros p e H. exact (check_inputs_err _ 0 e H). Qed.
Print Assumptions C50_first.

Example C50_example :
  let sg ty := set_in_partial_sigs [(PubKey true (ex_pk ex_sec_a), ESig (toy_sig [] []) ty)] in
  check_partial_sigs_sighash_type (ex_of 0 [sg 1 ex_wpkh; sg 131 ex_wsh]) = Ok tt
  /\ check_partial_sigs_sighash_type (ex_of 0 [sg 1 ex_wpkh; sg 1 ex_wsh; sg 3 ex_wpkh])
     = Err (PSWrongFlag 1 131 1 (PubKey true (ex_pk ex_sec_a)))
  /\ check_partial_sigs_sighash_type (ex_of 0 [sg 1 ex_wpkh; set_in_sighash_type (Some 4) ex_wsh]) = Err (PSNonStandardInput 1 4).
Proof. vm_compute. auto. Qed.

(** The signer's own signatures pass the check. *)
Theorem C50_signed : forall (X : Ext) (C : Cfg) (S : SignExt) k p p' used,
  signer_sign k p = Ok (p', used) -> sorted_psbt p ->
  (forall n i, nth_error (p_inputs p) (N.to_nat n) = Some i -> sigs_match i) ->
  check_partial_sigs_sighash_type p' = Ok tt.
Proof.
  intros X C S k p p' used H Hso Hm. apply C50_check. destruct (C30_sign X C S k p p' used H) as (t & Ht & Hsb & Hn & _).
  apply F_nth. intros n i' Hi'. pose proof (F2_nth _ _ _ (sb_inputs _ _ Hsb) (N.to_nat n)) as Hj. rewrite Hi' in Hj.
  destruct (nth_error (p_inputs p) (N.to_nat n)) as [i|] eqn:Ei; [|contradiction].
  destruct (Hm n i Ei) as (ty & Hty & Hs).
  destruct (Hn n i i' Ei Hi') as [(He & m & ty' & sks & Hts & Hk & Ha & _)|(_ & -> & _)]; [|exists ty; auto].
  assert (ty' = ty). { destruct Hts as (j & u & [Hj1 _] & _ & Hj2 & _). assert (j = i) by congruence. subst j. now apply (type_fun i). } subst ty'.
  exists ty. split.
  - destruct Hty as [H1 H2]. split; [assumption|]. unfold same_but_sigs in Hj. rewrite Hj. exact H2.
  - intros pk s Hin.
    assert (Hst : sorted_psbt p').
    { assert (Hw : p' = signed_psbt k t p).
      { rewrite (signer_sign_eq k p t Ht) in H. destruct (existsb _ _); [discriminate|]. destruct (flat_map _ _); [|discriminate]. congruence. }
      subst p'. destruct Hso as (A & B & D). split; [|split].
      - rewrite (sb_global _ _ Hsb). destruct A. constructor; assumption.
      - apply F_nth. intros a b Hb. rewrite signed_psbt_nth in Hb. destruct (nth_error (p_inputs p) (N.to_nat a)) as [c|] eqn:Ec; [|discriminate].
        cbn [option_map] in Hb. apply Some_inj in Hb. subst b. assert (Sc : sorted_input c) by exact (proj1 (Forall_forall _ _) B _ (nth_error_In _ _ Ec)).
        unfold sign_outcome. destruct (outcome_of k t p a); auto. destruct Sc. constructor; try assumption. cbn. now apply add_sigs_sorted.
      - rewrite (sb_outputs _ _ Hsb). exact D. }
    destruct Hst as (_ & Hst & _). assert (Si : sorted_input i') by exact (proj1 (Forall_forall _ _) Hst _ (nth_error_In _ _ Hi')).
    apply (m_in_get sk_pubkey) in Hin; [|apply Si]. apply Ha in Hin as [(l1 & sk & l2 & _ & _ & _ & ->)|[_ Hin]]; [reflexivity|].
    apply (m_get_in sk_pubkey sk_pubkey_inj) in Hin. exact (Hs _ _ Hin).
Qed.
Print Assumptions C50_signed.

(** ** C60: signed PSBTs are well-formed, so that they survive a round trip *)

Theorem C60_wf : forall (X : Ext) (C : Cfg) (S : SignExt) (L : SignLaws X S) k p p' used,
  signer_sign k p = Ok (p', used) -> wf_psbt p -> wf_psbt p'.
Proof.
  intros X C S L k p p' used H Hw. destruct (C30_sign X C S k p p' used H) as (t & Ht & _).
  rewrite (signer_sign_eq k p t Ht) in H. destruct (existsb _ _); [discriminate|]. destruct (flat_map _ _); [|discriminate]. inj H. injection H as <- _.
  now apply signed_psbt_wf.
Qed.
Print Assumptions C60_wf.

Example C60_example : wf_psbt ex_all
  /\ then_holds (signer_sign (ex_keys [ex_sec_a; ex_sec_b]) ex_all) (fun r =>
       psbt_deserialize (psbt_serialize (fst r)) = Ok (fst r)).
Proof. split; [apply ex_wf; vm_compute; reflexivity|vm_compute; reflexivity]. Qed.

(** ** C61: signing again changes nothing *)

Theorem C61_again : forall (X : Ext) (C : Cfg) (S : SignExt) k p p' used,
  signer_sign k p = Ok (p', used) -> sorted_psbt p -> signer_sign k p' = Ok (p', used).
Proof.
  intros X C S k p p' used H Hs. destruct (C30_sign X C S k p p' used H) as (t & Ht & Hsb & _).
  pose proof (sign_again k p p' t Ht Hsb) as H2. rewrite (signer_sign_eq k p t Ht) in H. destruct (existsb _ _); [discriminate|].
  destruct (flat_map (error_of k t p) (input_indices p)); [|discriminate]. inj H. injection H as <- <-. rewrite H2.
  rewrite signed_twice; [reflexivity|assumption|]. destruct Hs as (_ & Hs & _). eapply Forall_impl; [|exact Hs]. intros i Hi. apply Hi.
Qed.
Print Assumptions C61_again.

Example C61_example : sorted_psbt ex_all
  /\ then_holds (signer_sign (ex_keys [ex_sec_b]) ex_all) (fun r =>
       signer_sign (ex_keys [ex_sec_b]) (fst r) = Ok r /\ snd r <> []).
Proof. split; [apply wf_sorted, ex_wf; vm_compute; reflexivity|vm_compute; split; [reflexivity|discriminate]]. Qed.

(** ** C62: signing in parallel and combining is signing in sequence *)

(** No key of [k] has signed before with another result. *)
Definition no_old_signature `{SignExt} (k : provider) (t : tx) (p : psbt) : Prop :=
  forall n i m ty sks pk s, nth_error (p_inputs p) (N.to_nat n) = Some i -> to_sign p t n m ty ->
    keys_for k (in_bip32_derivations i) sks -> In pk (map public_of sks) ->
    m_get sk_pubkey pk (in_partial_sigs i) = Some s -> signature_by sks m ty pk s.
Lemma fresh : forall (X : Ext) (C : Cfg) (S : SignExt) k t p, unsigned_tx p = Ok t -> no_old_signature k t p -> fresh_keys k t p.
Proof.
  intros X C S k t p Ht H n i m ty sks pk s Hi Ho Hin Hg.
  assert (Hn : n < blen (tx_input t)).
  { rewrite (unsigned_inputs _ _ Ht). assert (Hx : nth_error (p_inputs p) (N.to_nat n) <> None) by congruence. apply nth_error_Some in Hx. unfold blen. lia. }
  destruct (outcome_ty k t p n m ty sks Hn Ho) as (j & Hj & _ & Hs & _ & Hk). assert (j = i) by congruence. subst j. exact (H n i m ty sks pk s Hi Hs Hk Hin Hg).
Qed.
Theorem C62_parallel : forall (X : Ext) (C : Cfg) (S : SignExt) k1 k2 p t p1 p2 u1 u2,
  signer_sign k1 p = Ok (p1, u1) -> signer_sign k2 p = Ok (p2, u2) ->
  sorted_psbt p -> unsigned_tx p = Ok t -> no_old_signature k1 t p ->
  exists p12, signer_sign k2 p1 = Ok (p12, u2) /\ psbt_combine p1 p2 = Ok p12.
Proof.
  intros X C S k1 k2 p t p1 p2 u1 u2 H1 H2 Hs Ht Hf.
  rewrite (signer_sign_eq k1 p t Ht) in H1. destruct (existsb _ _); [discriminate|].
  destruct (flat_map (error_of k1 t p) (input_indices p)); [|discriminate]. inj H1. injection H1 as <- _.
  pose proof (sign_again k2 p _ t Ht (signed_psbt_same k1 t p)) as H3.
  rewrite (signer_sign_eq k2 p t Ht) in H2. destruct (existsb _ _); [discriminate|].
  destruct (flat_map (error_of k2 t p) (input_indices p)); [|discriminate]. inj H2. injection H2 as <- <-.
  eexists. split; [exact H3|]. apply merge_is_sequence; [assumption|assumption|]. now apply fresh.
Qed.
Print Assumptions C62_parallel.

Lemma ex_no_old k t : no_old_signature k t ex_all.
Proof.
  intros n i m ty sks pk s Hi _ _ _ Hg. exfalso.
  assert (Hall : Forall (fun i => in_partial_sigs i = []) (p_inputs ex_all)) by (repeat constructor).
  eapply Forall_forall in Hall; [|exact (nth_error_In _ _ Hi)]. rewrite Hall in Hg. discriminate.
Qed.
Example C62_example : (forall t, no_old_signature (ex_keys [ex_sec_a]) t ex_all)
  /\ then_holds (unsigned_tx ex_all) (fun _ =>
     then_holds (signer_sign (ex_keys [ex_sec_a]) ex_all) (fun r1 =>
     then_holds (signer_sign (ex_keys [ex_sec_b]) ex_all) (fun r2 =>
     then_holds (psbt_combine (fst r1) (fst r2)) (fun p12 =>
       signer_sign (ex_keys [ex_sec_b]) (fst r1) = Ok (p12, snd r2)
       /\ map (fun i => blen (in_partial_sigs i)) (p_inputs p12) = [2; 2; 2; 0; 2; 2])))).
Proof. split; [intros t; apply ex_no_old|vm_compute; split; reflexivity]. Qed.

(** Without the hypothesis it fails: combining can bring back an old signature. *)
Theorem C62_old_signature_refuted : exists (X : Ext) (C : Cfg) (S : SignExt) k1 k2 p p1 p2 u1 u2 p12,
  signer_sign k1 p = Ok (p1, u1) /\ signer_sign k2 p = Ok (p2, u2) /\ sorted_psbt p
  /\ signer_sign k2 p1 = Ok (p12, u2) /\ psbt_combine p1 p2 <> Ok p12.
Proof.
  set (p := ex_of 3 [set_in_partial_sigs [(PubKey true (ex_pk ex_sec_a), ESig (toy_sig [] []) 1)] ex_wpkh]).
  exists toy, ex_cfg, toy_sign, (ex_keys [ex_sec_a]), (ex_keys [ex_sec_b]), p. do 5 eexists.
  split; [vm_compute; reflexivity|]. split; [vm_compute; reflexivity|].
  split; [apply wf_sorted, ex_wf; vm_compute; reflexivity|]. split; [vm_compute; reflexivity|]. vm_compute. discriminate.
Qed.
Print Assumptions C62_old_signature_refuted.

(** The order of two signers does not matter, if no two different keys share a public key. *)
Theorem C62_order : forall (X : Ext) (C : Cfg) (S : SignExt) k1 k2 p p1 p2 u1 u2,
  signer_sign k1 p = Ok (p1, u1) -> signer_sign k2 p = Ok (p2, u2) -> sorted_psbt p ->
  (forall a b, secret_pubkey a = secret_pubkey b -> a = b) ->
  exists p12, signer_sign k2 p1 = Ok (p12, u2) /\ signer_sign k1 p2 = Ok (p12, u1).
Proof.
  intros X C S k1 k2 p p1 p2 u1 u2 H1 H2 Hs Hinj. destruct (C30_sign X C S k1 p p1 u1 H1) as (t & Ht & _).
  rewrite (signer_sign_eq k1 p t Ht) in H1. destruct (existsb (panics k1 t p) _) eqn:Ep1; [discriminate|].
  destruct (flat_map (error_of k1 t p) (input_indices p)) eqn:Ee1; [|discriminate]. inj H1. injection H1 as <- <-.
  rewrite (signer_sign_eq k2 p t Ht) in H2. destruct (existsb (panics k2 t p) _) eqn:Ep2; [discriminate|].
  destruct (flat_map (error_of k2 t p) (input_indices p)) eqn:Ee2; [|discriminate]. inj H2. injection H2 as <- <-.
  rewrite (sign_again k2 p _ t Ht (signed_psbt_same k1 t p)), (sign_again k1 p _ t Ht (signed_psbt_same k2 t p)), Ep1, Ep2, Ee1, Ee2.
  eexists. split; [reflexivity|]. do 2 f_equal.
  pose proof (signed_psbt_same k1 t p) as S1. pose proof (signed_psbt_same k2 t p) as S2.
  pose proof (sbs_trans _ _ _ S1 (signed_psbt_same k2 t (signed_psbt k1 t p))) as S12.
  pose proof (sbs_trans _ _ _ S2 (signed_psbt_same k1 t (signed_psbt k2 t p))) as S21.
  apply (signed_psbt_ext p); [assumption|assumption| |].
  - intros n. rewrite (sign_again_nth k2 t p _ n S1), (sign_again_nth k1 t p _ n S2), !signed_psbt_nth.
    destruct (nth_error (p_inputs p) (N.to_nat n)) as [i|] eqn:E; [|reflexivity]. cbn [option_map]. f_equal.
    assert (Si : sorted_input i) by (destruct Hs as (_ & Hs & _); exact (proj1 (Forall_forall _ _) Hs _ (nth_error_In _ _ E))).
    unfold sign_outcome.
    destruct (outcome_of k1 t p n) as [|e| |m ty sks] eqn:Eo.
    1-3: destruct (outcome_of k2 t p n) as [|e2| |m2 ty2 sks2] eqn:Eo2; auto;
         destruct (outcome_other k2 k1 _ _ _ _ _ _ Eo2) as [sks' H']; congruence.
    destruct (outcome_other k1 k2 _ _ _ _ _ _ Eo) as [sks' Eo']. rewrite Eo'. unfold sign_input. cbn [in_partial_sigs set_in_partial_sigs].
    replace (add_sigs m ty (add_sigs m ty (in_partial_sigs i) sks) sks') with (add_sigs m ty (add_sigs m ty (in_partial_sigs i) sks') sks); [reflexivity|].
    pose proof (si_partial_sigs _ Si) as Ss. apply (m_ext sk_pubkey sk_pubkey_inj); [apply add_sigs_sorted; now apply add_sigs_sorted..|].
    assert (Hsame : forall a b pk s, signature_by a m ty pk s -> In pk (map public_of b) -> signature_by b m ty pk s).
    { intros a b pk s (l1 & sk & l2 & _ & Hpk & _ & ->) Hin. destruct (signature_ex b m ty pk Hin) as [s' Hs'].
      pose proof Hs' as (l1' & sk' & l2' & _ & Hpk' & _ & ->). replace (pv_secret sk) with (pv_secret sk'); [assumption|].
      apply Hinj. unfold public_of in Hpk, Hpk'. congruence. }
    assert (Hdec : forall a pk, {In pk (map public_of a)} + {~ In pk (map public_of a)}) by (intros a pk; apply in_dec, pubkey_eq_dec).
    assert (Hone : forall a b pk s, m_get sk_pubkey pk (add_sigs m ty (add_sigs m ty (in_partial_sigs i) a) b) = Some s ->
                     m_get sk_pubkey pk (add_sigs m ty (add_sigs m ty (in_partial_sigs i) b) a) = Some s).
    { intros a b pk s Hg. apply add_sigs_get in Hg. apply add_sigs_get. destruct Hg as [Hg|[Hb Hg]].
      - destruct (Hdec a pk) as [Ha|Ha]; [left; exact (Hsame b a pk s Hg Ha)|right; split; [assumption|]]. apply add_sigs_get. now left.
      - apply add_sigs_get in Hg as [Hg|[Ha Hg]]; [now left|right; split; [assumption|]]. apply add_sigs_get. right. auto. }
    intros pk. destruct (m_get sk_pubkey pk (add_sigs m ty (add_sigs m ty (in_partial_sigs i) sks') sks)) as [s|] eqn:Eg.
    + symmetry. now apply Hone.
    + destruct (m_get sk_pubkey pk (add_sigs m ty (add_sigs m ty (in_partial_sigs i) sks) sks')) as [s|] eqn:Eh; [|reflexivity].
      apply Hone in Eh. congruence.
  - assert (F1 : flags_after (signed_types k1 t p) (g_tx_modifiable_flags (p_global p)) (g_tx_modifiable_flags (p_global (signed_psbt k2 t (signed_psbt k1 t p))))).
    { eapply fa_ext; [|exact (fa_trans _ _ _ _ _ (signed_psbt_flags k1 t p Ht) (sign_again_flags k2 t p _ Ht S1))].
      intros ty. pose proof (signed_types_other k2 k1 t p ty). tauto. }
    assert (F2 : flags_after (signed_types k1 t p) (g_tx_modifiable_flags (p_global p)) (g_tx_modifiable_flags (p_global (signed_psbt k1 t (signed_psbt k2 t p))))).
    { eapply fa_ext; [|exact (fa_trans _ _ _ _ _ (signed_psbt_flags k2 t p Ht) (sign_again_flags k1 t p _ Ht S2))].
      intros ty. pose proof (signed_types_other k2 k1 t p ty). tauto. }
    exact (flags_after_fun _ _ _ _ F2 F1).
Qed.
Print Assumptions C62_order.

(** ** C63: does the signer check what it signs? *)

(** No: the previous transaction need not be the one that the outpoint names, and the redeem and
    witness scripts need not hash to what the output commits to. *)
Theorem C63_unchecked : forall (X : Ext) (C : Cfg) (S : SignExt) (a b d : bytes) h (prev : tx),
  length h = 20%nat -> length a = 32%nat ->
  tx_output prev = [TxOut 5000 (program_script 0 h)] ->
  let i := set_in_non_witness_utxo (Some prev) (input_new (a, 0)) in
  let j := set_in_witness_script (Some d) (set_in_redeem_script (Some (program_script 0 a))
             (set_in_witness_utxo (Some (TxOut 7000 (p2sh_script h))) (input_new (b, 1)))) in
  let p := ex_of 3 [i; j] in
  exists t, unsigned_tx p = Ok t
    /\ psbt_sighash_ecdsa p 0 t = Ok (segwit_digest t 0 (p2pkh_script h) 5000 1, 1)
    /\ psbt_sighash_ecdsa p 1 t = Ok (segwit_digest t 1 d 7000 1, 1).
Proof.
  intros X C S a b d h prev Hh Ha Hp i j p. eexists. split; [reflexivity|].
  assert (Hi : input_at p 0 i) by (split; reflexivity). assert (Hj : input_at p 1 j) by (split; reflexivity).
  assert (Hpr : forall x v, length x = v -> (2 <= v <= 40)%nat -> program (program_script 0 x) 0 x).
  { intros x v Hx Hv. split; [reflexivity|]. unfold blen. split; [lia|lia]. }
  split; apply sighash_iff; try reflexivity.
  - exists i, (TxOut 5000 (program_script 0 h)). split; [assumption|]. split; [apply funding_ok_iff; unfold i; cbn; now rewrite Hp|].
    split; [split; [now left|right; auto]|]. apply (MWpkh _ 0 i (TxOut 5000 (program_script 0 h)) 1 h). split; [apply (Hpr h 20%nat Hh); lia|assumption].
  - exists j, (TxOut 7000 (p2sh_script h)). split; [assumption|]. split; [apply funding_ok_iff; reflexivity|].
    split; [split; [now left|right; auto]|]. apply (MShWsh _ 1 j (TxOut 7000 (p2sh_script h)) 1 (program_script 0 a) a d); try reflexivity.
    + exists h. auto.
    + split; [apply (Hpr a 32%nat Ha); lia|assumption].
Qed.
Print Assumptions C63_unchecked.

(** So BIP-174's checks of a signer are not made: a previous transaction with another txid is
    accepted, with a signature as the result. *)
Theorem C63_refuted : exists (X : Ext) (C : Cfg) (S : SignExt) k p i prev r,
  wf_psbt p /\ nth_error (p_inputs p) 0 = Some i /\ in_non_witness_utxo i = Some prev
  /\ compute_txid prev <> in_previous_txid i
  /\ brief (signer_sign k p) = Some r /\ fst (fst r) = [1].
Proof.
  set (prev := Tx 2 0 [TxIn txid_b 7 [] 0 []] [TxOut 5000 (program_script 0 (repeat x11 20))]).
  set (i := set_in_non_witness_utxo (Some prev) (set_in_witness_utxo None ex_wpkh)).
  exists toy, ex_cfg, toy_sign, (ex_keys [ex_sec_a]), (ex_of 3 [i]), i, prev, ([1], [(0, 1)], 0).
  split; [apply ex_wf; vm_compute; reflexivity|]. split; [reflexivity|]. split; [reflexivity|].
  split; [intros H; apply bytes_eqb_eq in H; vm_compute in H; discriminate|]. vm_compute. auto.
Qed.
Print Assumptions C63_refuted.

(** ** C64: a signer that has no key *)

(** The flags change although nothing was signed; nothing else does. *)
Theorem C64_refuted : exists (X : Ext) (C : Cfg) (S : SignExt) k p p',
  (forall r, k r = inr None) /\ signer_sign k p = Ok (p', [(0, [])])
  /\ N.testbit (g_tx_modifiable_flags (p_global p)) 0 = true /\ N.testbit (g_tx_modifiable_flags (p_global p')) 0 = false.
Proof.
  exists toy, ex_cfg, toy_sign, (fun _ => inr None), (ex_of 3 [ex_wpkh]). eexists. split; [reflexivity|].
  split; [vm_compute; reflexivity|]. vm_compute. auto.
Qed.
Print Assumptions C64_refuted.
Theorem C64_only_flags : forall (X : Ext) (C : Cfg) (S : SignExt) k p p' used,
  signer_sign k p = Ok (p', used) -> (forall n i, nth_error (p_inputs p) (N.to_nat n) = Some i -> keys_for k (in_bip32_derivations i) []) ->
  p_inputs p' = p_inputs p /\ p_outputs p' = p_outputs p
  /\ p_global p' = set_g_tx_modifiable_flags (g_tx_modifiable_flags (p_global p')) (p_global p)
  /\ (forall n ks, In (n, ks) used -> ks = []).
Proof.
  intros X C S k p p' used H Hk. destruct (C30_sign X C S k p p' used H) as (t & Ht & Hsb & Hn & _ & Hu).
  split; [|split; [exact (sb_outputs _ _ Hsb)|split; [exact (sb_global _ _ Hsb)|]]].
  - assert (p' = signed_psbt k t p).
    { rewrite (signer_sign_eq k p t Ht) in H. destruct (existsb _ _); [discriminate|]. destruct (flat_map _ _); [|discriminate]. congruence. }
    subst p'. apply nth_ext_N. intros n. rewrite signed_psbt_nth. destruct (nth_error (p_inputs p) (N.to_nat n)) as [i|] eqn:E; [|reflexivity].
    cbn [option_map]. f_equal. unfold sign_outcome. destruct (outcome_of k t p n) as [|e| |m ty sks] eqn:Eo; auto.
    assert (Hb : n < blen (tx_input t)).
    { rewrite (unsigned_inputs _ _ Ht). assert (Hx : nth_error (p_inputs p) (N.to_nat n) <> None) by congruence. apply nth_error_Some in Hx. unfold blen. lia. }
    destruct (outcome_ty k t p n m ty sks Hb Eo) as (j & Hj & _ & _ & _ & Hkj). assert (j = i) by congruence. subst j.
    apply found_iff in Hkj. pose proof (Hk n i E) as H0. apply found_iff in H0. rewrite <- Hkj, H0. unfold sign_input. cbn [add_sigs fold_left]. clear. destruct i. reflexivity.
  - intros n ks Hin. rewrite (signer_sign_eq k p t Ht) in H. destruct (existsb _ _); [discriminate|]. destruct (flat_map (error_of k t p) _); [|discriminate].
    inj H. injection H as _ <-. apply in_flat_map in Hin as (a & Ha & Hin). unfold used_of in Hin.
    destruct (outcome_of k t p a) as [|e| |m ty sks] eqn:Eo; try contradiction. destruct Hin as [[= <- <-]|[]].
    apply input_indices_in in Ha. rewrite <- (unsigned_inputs _ _ Ht) in Ha.
    destruct (outcome_ty k t p a m ty sks Ha Eo) as (i & Hi & _ & _ & _ & Hki). apply found_iff in Hki. pose proof (Hk a i Hi) as H0. apply found_iff in H0.
    now rewrite <- Hki, H0.
Qed.
Print Assumptions C64_only_flags.

(** ** C65: are signatures added for the listed keys only? *)

(** Not in general: the key derived from the origin is not compared with the public key. *)
Theorem C65_refuted : exists (X : Ext) (C : Cfg) (S : SignExt) x p p' used i i' pk s,
  signer_sign (xprv_get_key x) p = Ok (p', used)
  /\ nth_error (p_inputs p) 0 = Some i /\ nth_error (p_inputs p') 0 = Some i'
  /\ in_partial_sigs i = [] /\ In (pk, s) (in_partial_sigs i') /\ ~ In (pub_inner pk) (map fst (in_bip32_derivations i)).
Proof.
  set (m := ToyXprv [x05] [] [x00; x00; x00; x00]).
  set (i := set_in_bip32_derivations [(ex_pk ex_sec_a, KeySource (toy_fp [x05] []) [7])] ex_wpkh).
  exists toy, ex_cfg, toy_sign, m, (ex_of 3 [i]). do 2 eexists. exists i. do 3 eexists.
  split; [vm_compute; reflexivity|]. split; [reflexivity|]. split; [vm_compute; reflexivity|]. split; [reflexivity|].
  split; [now left|]. cbn [map fst in_bip32_derivations i set_in_bip32_derivations pub_inner In]. intros [H|[]]. vm_compute in H. discriminate.
Qed.
Print Assumptions C65_refuted.

(** It holds for a provider whose keys are the ones asked for. *)
Theorem C65_listed : forall (X : Ext) (C : Cfg) (S : SignExt) k p p' used,
  signer_sign k p = Ok (p', used) ->
  (forall pk src sk, has_key k pk src sk -> public_of sk = PubKey true pk) ->
  forall n i i' pk s, nth_error (p_inputs p) (N.to_nat n) = Some i -> nth_error (p_inputs p') (N.to_nat n) = Some i' ->
  m_get sk_pubkey pk (in_partial_sigs i') = Some s ->
  m_get sk_pubkey pk (in_partial_sigs i) = Some s \/ pub_compressed pk = true /\ In (pub_inner pk) (map fst (in_bip32_derivations i)).
Proof.
  intros X C S k p p' used H Hh n i i' pk s Hi Hi' Hg. destruct (C30_sign X C S k p p' used H) as (t & Ht & _ & Hn & _).
  destruct (Hn n i i' Hi Hi') as [(He & m & ty & sks & Hs & Hk & Ha & _)|(_ & -> & _)]; [|now left].
  apply Ha in Hg as [Hg|[_ Hg]]; [right|now left]. apply signature_in in Hg.
  clear - Hk Hg Hh. induction Hk as [|pk' src l sk sks H1 _ IH|pk' src l sks H1 _ IH]; cbn [map In fst] in *; [contradiction| |].
  - destruct Hg as [Hg|Hg]; [|destruct (IH Hg); auto]. rewrite (Hh _ _ _ H1) in Hg. subst pk. auto.
  - destruct (IH Hg); auto.
Qed.
Print Assumptions C65_listed.

Example C65_example : forall pk src sk, has_key (ex_keys [ex_sec_a; ex_sec_b]) pk src sk -> public_of sk = PubKey true pk.
Proof.
  intros pk src sk [H|[_ H]]; [discriminate|]. unfold ex_keys, map_get_key in H.
  assert (H' : m_get sk_pubkey (PubKey true pk) (map (fun s => (PubKey true (ex_pk s), PrivKey true s)) [ex_sec_a; ex_sec_b]) = Some sk)
    by congruence. clear H.
  apply (m_get_in sk_pubkey sk_pubkey_inj), in_map_iff in H' as (s & H & _).
  pose proof (f_equal fst H) as E1. pose proof (f_equal snd H) as E2. cbn [fst snd] in E1, E2. rewrite <- E1, <- E2. reflexivity.
Qed.
