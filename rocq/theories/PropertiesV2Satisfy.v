(** C78: what the satisfier offers to miniscript (src/v2/miniscript/satisfy.rs:21-127). *)
From Verif Require Import Base OMap Consensus Ext ExtInstance Raw TapTree Serialize SerializeFacts MapCodec
  V2Input V2Output V2Psbt SpecPsbt V2CodecFacts V2WireFacts SampleV2 V2Finalize.
Local Open Scope N_scope.

#[local] Existing Instance toy | 100.
#[local] Instance ex_cfg : Cfg | 100 := cfg_of false false.

(** Signatures by key: exactly the entries of the input. *)
Theorem C78_signatures : forall (X : Ext) (C : Cfg) i, wf_input i ->
  (forall s, sat_tap_key (input_satisfier i) = Some s <-> in_tap_key_sig i = Some s) /\
  (forall pk s, sat_ecdsa (input_satisfier i) pk = Some s <-> In (pk, s) (in_partial_sigs i)) /\
  (forall x lh s, sat_tap_leaf (input_satisfier i) x lh = Some s <-> In ((x, lh), s) (in_tap_script_sigs i)).
Proof.
  intros X C i W. split; [reflexivity|]. cbn [sat_ecdsa sat_tap_leaf input_satisfier]. split; intros; split; intros H.
  - now apply (m_get_in _ sk_pubkey_inj) in H.
  - apply (m_in_get sk_pubkey); auto. apply (wi_partial_sigs _ W).
  - now apply (m_get_in _ sk_xleaf_inj) in H.
  - apply (m_in_get sk_xleaf); auto. apply (wi_tap_script_sigs _ W).
Qed.
Print Assumptions C78_signatures.

Lemma find_iff {A} (f : A -> bool) (P : A -> Prop) l : (forall a, f a = true <-> P a) ->
  (forall a, find f l = Some a -> In a l /\ P a) /\ (find f l = None <-> forall a, In a l -> ~ P a).
Proof.
  intros Hf. split.
  - intros a H. apply find_some in H as [H1 H2]. split; auto. now apply Hf.
  - split.
    + intros H a Ha Hp. apply Hf in Hp. now rewrite (find_none _ _ H a Ha) in Hp.
    + intros H. destruct (find f l) eqn:E; auto. apply find_some in E as [E1 E2]. apply Hf in E2. now apply H in E1.
Qed.
(** [hash160] is RIPEMD-160 of SHA-256; keys are hashed in their serialized form. *)
Definition keyhash `{X : Ext} (k : pubkey) : bytes := ripemd160 (sha256 (ser_pubkey k)).

(** Keys and signatures by the hash of a key: entries of the input with that hash, and
    none only if there is no such entry. *)
Theorem C78_by_hash : forall (X : Ext) (C : Cfg) i h,
  (forall k, sat_pkh_pk (input_satisfier i) h = Some k ->
     pub_compressed k = true /\ (exists ks, In (pub_inner k, ks) (in_bip32_derivations i)) /\ keyhash k = h) /\
  (sat_pkh_pk (input_satisfier i) h = None <->
     forall x ks, In (x, ks) (in_bip32_derivations i) -> keyhash (PubKey true x) <> h) /\
  (forall k s, sat_pkh_ecdsa (input_satisfier i) h = Some (k, s) -> In (k, s) (in_partial_sigs i) /\ keyhash k = h) /\
  (sat_pkh_ecdsa (input_satisfier i) h = None <-> forall k s, In (k, s) (in_partial_sigs i) -> keyhash k <> h) /\
  (forall lh x s, sat_pkh_tap (input_satisfier i) h lh = Some (x, s) ->
     In ((x, lh), s) (in_tap_script_sigs i) /\ ripemd160 (sha256 x) = h) /\
  (forall lh, sat_pkh_tap (input_satisfier i) h lh = None <->
     forall x s, In ((x, lh), s) (in_tap_script_sigs i) -> ripemd160 (sha256 x) <> h).
Proof.
  intros X C i h. cbn [sat_pkh_pk sat_pkh_ecdsa sat_pkh_tap input_satisfier].
  destruct (find_iff (fun e : bytes * keysource => bytes_eqb (pubkey_hash (PubKey true (fst e))) h)
    (fun e => keyhash (PubKey true (fst e)) = h) (in_bip32_derivations i)) as [A1 A2]; [intros e; apply bytes_eqb_eq|].
  destruct (find_iff (fun e : pubkey * esig => bytes_eqb (pubkey_hash (fst e)) h)
    (fun e => keyhash (fst e) = h) (in_partial_sigs i)) as [B1 B2]; [intros e; apply bytes_eqb_eq|].
  split; [|split; [|split; [|split]]].
  - intros k H. destruct (find _ _) as [[x ks]|]; [|discriminate]. injection H as <-. destruct (A1 _ eq_refl) as [H1 H2]. cbn in *. eauto.
  - split.
    + intros H x ks Hx. destruct (find _ _); [discriminate|]. apply (proj1 A2 eq_refl (x, ks) Hx).
    + intros H. rewrite (proj2 A2); auto. intros [x ks] Hx. exact (H x ks Hx).
  - intros k s H. destruct (B1 _ H). auto.
  - rewrite B2. split; [intros H k s Hk; exact (H (k, s) Hk)|intros H [k s] Hk; exact (H k s Hk)].
  - assert (T : forall lh, let f := fun e : xleaf * tsig => bytes_eqb (hash160 (fst (fst e))) h && bytes_eqb (snd (fst e)) lh in
      (forall a, find f (in_tap_script_sigs i) = Some a -> In a (in_tap_script_sigs i) /\ ripemd160 (sha256 (fst (fst a))) = h /\ snd (fst a) = lh) /\
      (find f (in_tap_script_sigs i) = None <-> forall a, In a (in_tap_script_sigs i) -> ~ (ripemd160 (sha256 (fst (fst a))) = h /\ snd (fst a) = lh))).
    { intros lh f. apply find_iff. intros e. unfold f. rewrite andb_true_iff, !bytes_eqb_eq. reflexivity. }
    split.
    + intros lh x s H. destruct (T lh) as [T1 _]. cbv zeta in T1. clear A1 A2 B1 B2 T. destruct (find _ _) as [[[y l] s']|] eqn:E; [|discriminate]. injection H as <- <-.
      destruct (T1 _ eq_refl) as (H1 & H2 & H3). cbn in *. subst. auto.
    + intros lh. destruct (T lh) as [_ T2]. cbv zeta in T2. clear A1 A2 B1 B2 T. split.
      * intros H x s Hx Hh. destruct (find _ _) eqn:E; [discriminate|]. apply (proj1 T2 eq_refl _ Hx). auto.
      * intros H. destruct (find _ _) as [a|]; [exfalso|reflexivity].
        assert (Q : Some a = None); [|discriminate Q]. apply T2. intros [[x l] s] Hx (H1 & H2). cbn in *. subst. exact (H x s Hx eq_refl).
Qed.
Print Assumptions C78_by_hash.

(** Preimages: exactly those of 32 bytes that the input has, and they are preimages. *)
Theorem C78_preimages : forall (X : Ext) (C : Cfg) i, wf_input i -> forall h v,
  (sat_sha256 (input_satisfier i) h = Some v <-> In (h, v) (in_sha256_preimages i) /\ length v = 32%nat) /\
  (sat_hash256 (input_satisfier i) h = Some v <-> In (h, v) (in_hash256_preimages i) /\ length v = 32%nat) /\
  (sat_ripemd160 (input_satisfier i) h = Some v <-> In (h, v) (in_ripemd160_preimages i) /\ length v = 32%nat) /\
  (sat_hash160 (input_satisfier i) h = Some v <-> In (h, v) (in_hash160_preimages i) /\ length v = 32%nat) /\
  (sat_sha256 (input_satisfier i) h = Some v -> sha256 v = h) /\
  (sat_hash256 (input_satisfier i) h = Some v -> sha256 (sha256 v) = h) /\
  (sat_ripemd160 (input_satisfier i) h = Some v -> ripemd160 v = h) /\
  (sat_hash160 (input_satisfier i) h = Some v -> ripemd160 (sha256 v) = h).
Proof.
  intros X C i W h v. cbn [sat_sha256 sat_hash256 sat_ripemd160 sat_hash160 input_satisfier].
  assert (G : forall n f m, preimages n f m ->
    (lookup_preimage m h = Some v <-> In (h, v) m /\ length v = 32%nat) /\ (lookup_preimage m h = Some v -> f v = h)).
  { intros n f m [[Hs _] Hh].
    assert (Q : lookup_preimage m h = Some v <-> In (h, v) m /\ length v = 32%nat).
    { unfold lookup_preimage, try_preimage32. split.
      - intros H. destruct (m_get bkey h m) as [w|] eqn:E; [|discriminate]. destruct (N.eqb_spec (blen w) 32); [|discriminate].
        injection H as <-. apply (m_get_in _ bkey_inj) in E. split; auto. unfold blen in *. lia.
      - intros [Hi Hl]. rewrite (m_in_get bkey h v m Hs Hi). replace (blen v =? 32) with true by (unfold blen; lia). reflexivity. }
    split; auto. intros H. apply Q in H as [H _]. rewrite Forall_forall in Hh. exact (Hh _ H). }
  destruct (G _ _ _ (wi_sha256 _ W)), (G _ _ _ (wi_hash256 _ W)), (G _ _ _ (wi_ripemd160 _ W)), (G _ _ _ (wi_hash160 _ W)). auto 12.
Qed.
Print Assumptions C78_preimages.

(** An input with a preimage of 32 bytes, a shorter one, a signature and a key. *)
Definition sat_pre : bytes := repeat x07 32.
Definition sat_bytes : bytes := sample_of
  [pr xfb [] (le4 2); pr x02 [] (le4 2); pr x04 [] [x01]; pr x05 [] [x00]]
  [[pr x0e [] txid_a; pr x0f [] (le4 1); pr x02 pk_a ([x30; x01] ++ [x01]); pr x06 pk_b (le4 9);
    pr x0b (@sha256 toy sat_pre) sat_pre; pr x0b (@sha256 toy [x01]) [x01]]] [].
Definition head_input (bs : bytes) : option input :=
  match @psbt_deserialize toy ex_cfg bs with Ok p => hd_error (p_inputs p) | _ => None end.
Lemma head_input_wf bs i : head_input bs = Some i -> @wf_input toy ex_cfg i.
Proof.
  unfold head_input. destruct (psbt_deserialize bs) as [p| |] eqn:E; try discriminate. intros H.
  pose proof (wp_inputs _ (@deserialize_wf toy toy_laws ex_cfg _ _ E)) as F. destruct (p_inputs p); [discriminate|].
  injection H as <-. exact (Forall_inv F).
Qed.
Definition sat_input : input := match head_input sat_bytes with Some i => i | None => input_invalid end.
Example C78_example : wf_input sat_input
  /\ sat_ecdsa (input_satisfier sat_input) (PubKey true pk_a) = Some (ESig [x30; x01] 1)
  /\ sat_ecdsa (input_satisfier sat_input) (PubKey true pk_b) = None
  /\ sat_pkh_ecdsa (input_satisfier sat_input) (keyhash (PubKey true pk_a)) = Some (PubKey true pk_a, ESig [x30; x01] 1)
  /\ sat_pkh_pk (input_satisfier sat_input) (keyhash (PubKey true pk_b)) = Some (PubKey true pk_b)
  /\ sat_sha256 (input_satisfier sat_input) (sha256 sat_pre) = Some sat_pre
  /\ sat_sha256 (input_satisfier sat_input) (sha256 [x01]) = None
  /\ sat_hash160 (input_satisfier sat_input) (hash160 sat_pre) = None.
Proof.
  split; [|vm_compute; auto 8]. apply (head_input_wf sat_bytes). vm_compute. reflexivity.
Qed.
