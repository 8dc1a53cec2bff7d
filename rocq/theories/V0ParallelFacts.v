(** Several signers and combiners on one v0 PSBT. *)
From Coq Require Import Sorted.
From Verif Require Import Base OMap Consensus Ext Serialize SerializeFacts MapCodec V2Sign V2Roles SpecSign V2SignFacts V2CombineFacts
  RawFacts V0Input V0Output V0Psbt SpecPsbt0 SpecCombine0 V0CombineFacts RegroupFacts V0Sign SpecExtract0 SpecSign0 V0SignFacts V0SignResultFacts SpecParallel0.
Local Open Scope N_scope.

Lemma same_iff {A} (a b : option A) : (forall g, a = Some g <-> b = Some g) -> a = b.
Proof. intros H. destruct a as [x|]; [symmetry; now apply H|]. destruct b as [y|]; [|reflexivity]. now apply H. Qed.

Section Parallel.
Context `{X : Ext} `{S : SignExt} `{T : SchnorrExt}.

(** ** The signatures a signer makes, whatever signatures there are already *)

Definition made_ecdsa (k : provider) (p : psbt0) (n : N) (pk : pubkey) : option esig :=
  match psbt0_signing_algorithm p n, psbt0_sighash_ecdsa p n (p0_unsigned_tx p), nth_error (p0_inputs p) (N.to_nat n) with
  | Ok AlgoEcdsa, Ok (m, ty), Some i => m_get sk_pubkey pk (add_sigs m ty [] (found k (i0_bip32_derivation i)))
  | _, _, _ => None
  end.
Definition key_of (k : provider) (i : input0) (x : bytes) : option (list bytes * privkey) :=
  match m_get bkey x (i0_tap_key_origins i) with
  | Some (lhs, src) => match k (KRBip32 src) with inr (Some sk) => Some (lhs, sk) | _ => None end
  | None => None
  end.
Definition made_key (k : provider) (p : psbt0) (n : N) : option tsig :=
  match psbt0_signing_algorithm p n, psbt0_sighash_taproot p n (p0_unsigned_tx p) None, nth_error (p0_inputs p) (N.to_nat n) with
  | Ok AlgoSchnorr, Ok (m, ty), Some i =>
      match i0_tap_internal_key i with
      | Some x => match key_of k i x with
                  | Some ([], sk) => Some (TSig (sign_schnorr m (tweak_secret (pv_secret sk) (i0_tap_merkle_root i))) ty)
                  | _ => None
                  end
      | None => None
      end
  | _, _, _ => None
  end.
Definition made_leaf (k : provider) (p : psbt0) (n : N) (x lh : bytes) : option tsig :=
  match psbt0_signing_algorithm p n, psbt0_sighash_taproot p n (p0_unsigned_tx p) (Some lh), nth_error (p0_inputs p) (N.to_nat n) with
  | Ok AlgoSchnorr, Ok (m, ty), Some i =>
      match key_of k i x with
      | Some (lhs, sk) => if existsb (bytes_eqb lh) lhs then Some (TSig (sign_schnorr m (pv_secret sk)) ty) else None
      | None => None
      end
  | _, _, _ => None
  end.
Definition over {A} (a b : option A) : option A := match a with Some _ => a | None => b end.

Lemma leaf_in lh lhs : existsb (bytes_eqb lh) lhs = true <-> In lh lhs.
Proof.
  rewrite existsb_exists. split; [intros (x & Hx & E); apply bytes_eqb_eq in E; now subst|]. intros H. exists lh. split; [exact H|now apply bytes_eqb_eq].
Qed.
Lemma made_same k p q n : same_but_signed0 p q ->
  (forall pk, made_ecdsa k q n pk = made_ecdsa k p n pk) /\ made_key k q n = made_key k p n /\ (forall x lh, made_leaf k q n x lh = made_leaf k p n x lh).
Proof.
  intros H. destruct (digests0_related p q n (p0_unsigned_tx p) H) as (Ha & He & Ht). pose proof (same_signed0_tx _ _ H) as Htx.
  unfold made_ecdsa, made_key, made_leaf. rewrite Ha, Htx, He, (Ht None).
  destruct (nth_error (p0_inputs p) (N.to_nat n)) as [i|] eqn:Ei; destruct (nth_error (p0_inputs q) (N.to_nat n)) as [j|] eqn:Ej.
  - pose proof (F2_get _ _ _ (sb0_inputs _ _ H) _ _ _ Ei Ej) as Hij. pose proof (same_sigs0_fields _ _ Hij) as (_ & _ & _ & _ & _ & Hb & Ho & Hk & Hr).
    assert (Hko : forall x, key_of k j x = key_of k i x) by (intros x; unfold key_of; now rewrite Ho).
    split; [|split].
    + intros pk. now rewrite Hb.
    + rewrite Hk, Hr. destruct (i0_tap_internal_key i) as [x|]; [|reflexivity]. now rewrite Hko.
    + intros x lh. rewrite (Ht (Some lh)), Hko. reflexivity.
  - exfalso. apply nth_error_None in Ej. rewrite (same_signed0_len _ _ H) in Ej. apply nth_error_None in Ej. congruence.
  - exfalso. apply nth_error_None in Ei. rewrite <- (same_signed0_len _ _ H) in Ei. apply nth_error_None in Ei. congruence.
  - split; [|split]; [intros pk|..|intros x lh; rewrite (Ht (Some lh))]; reflexivity.
Qed.

Lemma add_sigs_over m ty sks old pk : m_get sk_pubkey pk (add_sigs m ty old sks) = over (m_get sk_pubkey pk (add_sigs m ty [] sks)) (m_get sk_pubkey pk old).
Proof.
  unfold over. destruct (m_get sk_pubkey pk (add_sigs m ty [] sks)) as [g|] eqn:E.
  - apply add_sigs_get in E as [E|[_ E]]; [|discriminate]. apply add_sigs_get. now left.
  - assert (Hn : ~ In pk (map public_of sks)).
    { intros Hi. destruct (signature_ex sks m ty pk Hi) as [g Hg]. pose proof (proj2 (add_sigs_get m ty sks [] pk g) (or_introl Hg)). congruence. }
    apply same_iff. intros g. rewrite add_sigs_get. split; [intros [Hg|[_ Hg]]; [apply signature_in in Hg; contradiction|exact Hg]|auto].
Qed.

(** The taproot message exists for all leaves or for none. *)
Lemma message_leaves p n leaf leaf' m ty : taproot_to_sign p n leaf m ty -> exists m', taproot_to_sign p n leaf' m' ty.
Proof.
  intros (s & u & H1 & H2 & H3 & H4 & H5 & H6). destruct H6 as [[H6 H7]|(H6 & H7 & us & H8 & H9)].
  - eexists. exists s, u. split; [exact H1|]. split; [exact H2|]. split; [exact H3|]. split; [exact H4|]. split; [exact H5|]. left. split; [exact H6|reflexivity].
  - eexists. exists s, u. split; [exact H1|]. split; [exact H2|]. split; [exact H3|]. split; [exact H4|]. split; [exact H5|]. right. split; [exact H6|]. split; [exact H7|].
    exists us. split; [exact H8|reflexivity].
Qed.

Lemma key_of_iff k i x lhs sk : sorted_origins i ->
  (key_of k i x = Some (lhs, sk) <-> exists src, In (x, (lhs, src)) (i0_tap_key_origins i) /\ k (KRBip32 src) = inr (Some sk)).
Proof.
  intros Hs. destruct (origins_pre i Hs) as [_ Hg]. unfold key_of. split.
  - destruct (m_get bkey x (i0_tap_key_origins i)) as [[l src]|] eqn:E; [|discriminate].
    destruct (k (KRBip32 src)) as [e|[s|]] eqn:Ek; try discriminate. intros [= <- <-]. exists src. split; [|exact Ek].
    exact (m_get_in bkey bkey_inj _ _ _ E).
  - intros (src & Hin & Hk). apply Hg in Hin. now rewrite Hin, Hk.
Qed.
Lemma wanted_key k i x sk : sorted_origins i ->
  (wanted k i None x sk <-> i0_tap_internal_key i = Some x /\ i0_tap_key_sig i = None /\ key_of k i x = Some ([], sk)).
Proof.
  intros Hs. rewrite (key_of_iff k i x _ _ Hs). split.
  - intros H. inversion H as [x' src sk' H1 H2 H3 H4|]; subst. eauto.
  - intros (H1 & H2 & src & H3 & H4). now apply WantKey with src.
Qed.
Lemma wanted_leaf k i x lh sk : sorted_origins i ->
  (wanted k i (Some lh) x sk <-> m_get sk_xleaf (x, lh) (i0_tap_script_sigs i) = None /\ exists lhs, In lh lhs /\ key_of k i x = Some (lhs, sk)).
Proof.
  intros Hs. split.
  - intros H. inversion H as [|x' lhs src sk' lh' H1 H2 H3 H4]; subst. split; [exact H3|]. exists lhs. split; [exact H2|]. apply (key_of_iff k i x _ _ Hs). eauto.
  - intros (H1 & lhs & H2 & H3). apply (key_of_iff k i x _ _ Hs) in H3 as (src & H3 & H4). now apply WantLeaf with lhs src.
Qed.

Lemma made_key_iff k p n s g : vouts_in_bounds p -> spend_at p n s -> sorted_origins (snd s) ->
  (made_key k p n = Some g <-> spends_taproot s /\ exists x sk m ty, i0_tap_internal_key (snd s) = Some x /\ key_of k (snd s) x = Some ([], sk)
     /\ taproot_to_sign p n None m ty /\ g = TSig (sign_schnorr m (tweak_secret (pv_secret sk) (i0_tap_merkle_root (snd s)))) ty).
Proof.
  intros Hb Hs Hso. unfold made_key. destruct s as [t i]. cbn [snd] in *. pose proof Hs as Hs'. apply spend_at_iff in Hs' as [_ Hi]. rewrite Hi.
  rewrite <- (spends_taproot_iff p n (t, i) Hs). split.
  - destruct (psbt0_signing_algorithm p n) as [[|]|e|]; try discriminate.
    destruct (psbt0_sighash_taproot p n (p0_unsigned_tx p) None) as [[m ty]|e|] eqn:Em; try discriminate.
    destruct (i0_tap_internal_key i) as [x|] eqn:Ex; try discriminate. destruct (key_of k i x) as [[[|] sk]|] eqn:Ek; try discriminate.
    intros [= <-]. split; [reflexivity|]. exists x, sk, m, ty. split; [reflexivity|]. split; [exact Ek|]. split; [now apply taproot0_iff|reflexivity].
  - intros [Ha (x & sk & m & ty & Hx & Hk & Hm & ->)]. apply (taproot0_iff p n None m ty Hb) in Hm. now rewrite Ha, Hm, Hx, Hk.
Qed.
Lemma made_leaf_iff k p n s x lh g : vouts_in_bounds p -> spend_at p n s -> sorted_origins (snd s) ->
  (made_leaf k p n x lh = Some g <-> spends_taproot s /\ exists lhs sk m ty, In lh lhs /\ key_of k (snd s) x = Some (lhs, sk)
     /\ taproot_to_sign p n (Some lh) m ty /\ g = TSig (sign_schnorr m (pv_secret sk)) ty).
Proof.
  intros Hb Hs Hso. unfold made_leaf. destruct s as [t i]. cbn [snd] in *. pose proof Hs as Hs'. apply spend_at_iff in Hs' as [_ Hi]. rewrite Hi.
  rewrite <- (spends_taproot_iff p n (t, i) Hs). split.
  - destruct (psbt0_signing_algorithm p n) as [[|]|e|]; try discriminate.
    destruct (psbt0_sighash_taproot p n (p0_unsigned_tx p) (Some lh)) as [[m ty]|e|] eqn:Em; try discriminate.
    destruct (key_of k i x) as [[lhs sk]|] eqn:Ek; try discriminate. destruct (existsb (bytes_eqb lh) lhs) eqn:Eb; [|discriminate].
    apply leaf_in in Eb. intros [= <-]. split; [reflexivity|]. exists lhs, sk, m, ty. split; [exact Eb|]. split; [reflexivity|]. split; [now apply taproot0_iff|reflexivity].
  - intros [Ha (lhs & sk & m & ty & Hl & Hk & Hm & ->)]. apply (taproot0_iff p n (Some lh) m ty Hb) in Hm. apply leaf_in in Hl. now rewrite Ha, Hm, Hk, Hl.
Qed.

(** What signing makes of the signatures. *)
Lemma outcome0_sigs k p n s : vouts_in_bounds p -> spend_at p n s -> sorted_origins (snd s) ->
  match outcome0 k p n with
  | Panic => False
  | r => let i' := match r with Ok (i', _) => i' | _ => snd s end in
      (forall pk, m_get sk_pubkey pk (i0_partial_sigs i') = over (made_ecdsa k p n pk) (m_get sk_pubkey pk (i0_partial_sigs (snd s))))
      /\ i0_tap_key_sig i' = over (i0_tap_key_sig (snd s)) (made_key k p n)
      /\ (forall x lh, m_get sk_xleaf (x, lh) (i0_tap_script_sigs i') = over (m_get sk_xleaf (x, lh) (i0_tap_script_sigs (snd s))) (made_leaf k p n x lh))
  end.
Proof.
  intros Hb Hs Hso. pose proof (in_bounds_at p n s Hb Hs) as Hbs. pose proof (spend_at_lt _ _ _ Hs) as [_ Hn].
  assert (Hi : nth_error (p0_inputs p) (N.to_nat n) = Some (snd s)) by (destruct s as [t i]; now apply spend_at_iff in Hs).
  assert (Ktap : ~ spends_taproot s -> made_key k p n = None /\ forall x lh, made_leaf k p n x lh = None).
  { intros Hno. split; [|intros x lh].
    - destruct (made_key k p n) eqn:E; [|reflexivity]. now apply (made_key_iff k p n s _ Hb Hs Hso) in E.
    - destruct (made_leaf k p n x lh) eqn:E; [|reflexivity]. now apply (made_leaf_iff k p n s _ _ _ Hb Hs Hso) in E. }
  assert (Kecdsa : ~ spends_ecdsa s -> forall pk, made_ecdsa k p n pk = None).
  { intros Hno pk. rewrite <- (spends_ecdsa_iff p n s Hs) in Hno. unfold made_ecdsa. destruct (psbt0_signing_algorithm p n) as [[|]|e|]; try reflexivity. now destruct Hno. }
  assert (Hover : forall A (a : option A), a = over a None) by (intros A []; reflexivity).
  destruct (kinds_dec p n s Hs) as [He|[Ht|[He Ht]]].
  - destruct (Ktap (fun H => ecdsa_not_taproot s He H)) as [K1 K2]. rewrite (outcome0_ecdsa k p n s Hs Hbs He).
    assert (Ke : forall pk, made_ecdsa k p n pk = match psbt0_sighash_ecdsa p n (p0_unsigned_tx p) with
        Ok (m, ty) => m_get sk_pubkey pk (add_sigs m ty [] (found k (i0_bip32_derivation (snd s)))) | _ => None end).
    { intros pk. unfold made_ecdsa. now rewrite (proj2 (spends_ecdsa_iff p n s Hs) He), Hi. }
    destruct (psbt0_sighash_ecdsa p n (p0_unsigned_tx p)) as [[m ty]|e|] eqn:Em.
    + cbv zeta. split; [|split].
      * intros pk. rewrite Ke. replace (i0_partial_sigs (set_i0_partial_sigs _ _)) with (add_sigs m ty (i0_partial_sigs (snd s)) (found k (i0_bip32_derivation (snd s)))) by (now destruct (snd s)).
        apply add_sigs_over.
      * rewrite K1. replace (i0_tap_key_sig (set_i0_partial_sigs _ _)) with (i0_tap_key_sig (snd s)) by (now destruct (snd s)). apply Hover.
      * intros x lh. rewrite K2. replace (i0_tap_script_sigs (set_i0_partial_sigs _ _)) with (i0_tap_script_sigs (snd s)) by (now destruct (snd s)). apply Hover.
    + destruct (is_empty _); cbv zeta; (split; [intros pk; now rewrite Ke|]); (split; [rewrite K1; apply Hover|]); intros x lh; rewrite K2; apply Hover.
    + apply sighash0_panic in Em as (s' & Hs' & Ho); [|exact Hn]. rewrite (spend_at_fun p n s s' Hs Hs') in Hbs. contradiction.
  - pose proof (Kecdsa (fun H => ecdsa_not_taproot s H Ht)) as Ke. pose proof (outcome0_result k p n s Hb Hs Hso) as Hr.
    assert (Htap : spends_taproot s) by exact Ht.
    destruct (outcome0 k p n) as [[i' ks]|e|]; [| |contradiction]; cbv zeta.
    + inversion Hr as [| | |j' xs _ Hall Hsig _| |]; subst.
      { exfalso. eapply ecdsa_not_taproot; eassumption. } { exfalso. eapply ecdsa_not_taproot; eassumption. }
      split; [|split].
      * intros pk. rewrite Ke. cbn [over]. rewrite (ts_rest _ _ _ _ _ Hsig). now destruct (snd s).
      * apply same_iff. intros g. rewrite (ts_key _ _ _ _ _ Hsig g). unfold over. destruct (i0_tap_key_sig (snd s)) as [g0|] eqn:Eg.
        { split; [|auto]. intros [H|(x & sk & m & ty & Hw & _)]; [exact H|]. apply (wanted_key k _ _ _ Hso) in Hw as (_ & Hw & _). congruence. }
        rewrite (made_key_iff k p n s g Hb Hs Hso). split.
        { intros [H|(x & sk & m & ty & Hw & Hm & ->)]; [discriminate|]. apply (wanted_key k _ _ _ Hso) in Hw as (H1 & _ & H3). split; [exact Ht|]. exists x, sk, m, ty. auto. }
        { intros (_ & x & sk & m & ty & H1 & H2 & H3 & ->). right. exists x, sk, m, ty. split; [|auto]. apply (wanted_key k _ _ _ Hso). auto. }
      * intros x lh. apply same_iff. intros g. rewrite (ts_leaf _ _ _ _ _ Hsig x lh g). unfold over. destruct (m_get sk_xleaf (x, lh) (i0_tap_script_sigs (snd s))) as [g0|] eqn:Eg.
        { split; [|auto]. intros [H|(sk & m & ty & Hw & _)]; [exact H|]. apply (wanted_leaf k _ _ _ _ Hso) in Hw as [Hw _]. congruence. }
        rewrite (made_leaf_iff k p n s x lh g Hb Hs Hso). split.
        { intros [H|(sk & m & ty & Hw & Hm & ->)]; [discriminate|]. apply (wanted_leaf k _ _ _ _ Hso) in Hw as (_ & lhs & H1 & H2). split; [exact Ht|]. exists lhs, sk, m, ty. auto. }
        { intros (_ & lhs & sk & m & ty & H1 & H2 & H3 & ->). right. exists sk, m, ty. split; [|auto]. apply (wanted_leaf k _ _ _ _ Hso). eauto. }
    + assert (Hno : forall leaf m ty, ~ taproot_to_sign p n leaf m ty).
      { inversion Hr as [| |sks He1 _ _ _| |leaf x sk _ _ Hno|_ Hno].
        - exfalso. eapply ecdsa_not_taproot; eassumption.
        - intros leaf' m ty Hm. destruct (message_leaves p n leaf' leaf m ty Hm) as [m' Hm']. exact (Hno m' ty Hm').
        - contradiction. }
      assert (K1 : made_key k p n = None).
      { destruct (made_key k p n) eqn:E; [|reflexivity]. apply (made_key_iff k p n s _ Hb Hs Hso) in E as (_ & x & sk & m & ty & _ & _ & Hm & _). now apply Hno in Hm. }
      assert (K2 : forall x lh, made_leaf k p n x lh = None).
      { intros x lh. destruct (made_leaf k p n x lh) eqn:E; [|reflexivity]. apply (made_leaf_iff k p n s _ _ _ Hb Hs Hso) in E as (_ & lhs & sk & m & ty & _ & _ & Hm & _). now apply Hno in Hm. }
      split; [intros pk; now rewrite Ke|]. split; [rewrite K1; apply Hover|]. intros x lh. rewrite K2. apply Hover.
  - destruct (Ktap Ht) as [K1 K2]. pose proof (Kecdsa He) as Ke. destruct (outcome0_other k p n s Hs Hbs He Ht) as (e & -> & _).
    cbv zeta. split; [intros pk; now rewrite Ke|]. split; [rewrite K1; apply Hover|]. intros x lh. rewrite K2. apply Hover.
Qed.

(** ** The result of signing *)

Definition sorted_ready (p : psbt0) : Prop := sorted_psbt0 p /\ one_map_per_input p.
Lemma ready_origins p i : sorted_psbt0 p -> In i (p0_inputs p) -> sorted_origins i.
Proof. intros H Hi. pose proof (sp0_inputs _ H) as Hf. rewrite Forall_forall in Hf. exact (si0_tap_key_origins _ (Hf i Hi)). Qed.

Lemma outcome0_sorted k p n s i' ks : vouts_in_bounds p -> spend_at p n s -> sorted_input0 (snd s) ->
  outcome0 k p n = Ok (i', ks) -> sorted_input0 i'.
Proof.
  intros Hb Hs Hso E. pose proof (in_bounds_at p n s Hb Hs) as Hbs.
  destruct (kinds_dec p n s Hs) as [He|[Ht|[He Ht]]].
  - rewrite (outcome0_ecdsa k p n s Hs Hbs He) in E. destruct (psbt0_sighash_ecdsa p n (p0_unsigned_tx p)) as [[m ty]|e|]; [| |discriminate].
    + inj E. injection E as <- <-. pose proof (add_sigs_sorted m ty (found k (i0_bip32_derivation (snd s))) _ (si0_partial_sigs _ Hso)) as Hn.
      revert Hn. generalize (add_sigs m ty (i0_partial_sigs (snd s)) (found k (i0_bip32_derivation (snd s)))). intros l Hn. destruct Hso. destruct (snd s). constructor; cbn in *; assumption.
    + destruct (is_empty _); [|discriminate]. inj E. now injection E as <- <-.
  - rewrite (outcome0_taproot k p n s Hs Ht) in E. apply bind_ok in E as ([j u] & Hl & E). inj E. injection E as <- <-.
    pose proof (schnorr_loop_sorted k _ _ _ _ _ _ (si0_tap_script_sigs _ Hso) Hl) as Hn. pose proof (schnorr_loop_same k _ _ _ _ _ _ Hl) as Hsame.
    assert (Hp : i0_partial_sigs j = i0_partial_sigs (snd s)).
    { pose proof (outcome0_result k p n s Hb Hs (si0_tap_key_origins _ Hso)) as Hr. rewrite (outcome0_taproot k p n s Hs Ht), Hl in Hr. cbn [bind] in Hr.
      inversion Hr as [| | |j' xs _ _ Hsig _| |]; subst. rewrite (ts_rest _ _ _ _ _ Hsig). now destruct (snd s). }
    unfold same_but_sigs0 in Hsame. revert Hn. rewrite Hp in Hsame. rewrite Hsame.
    generalize (i0_tap_script_sigs j) (i0_tap_key_sig j). intros l g Hn. destruct Hso. destruct (snd s). constructor; cbn in *; assumption.
  - destruct (outcome0_other k p n s Hs Hbs He Ht) as (e & E' & _). congruence.
Qed.

Lemma same_signed0_sorted p q : same_but_signed0 p q -> sorted_psbt0 p -> Forall sorted_input0 (p0_inputs q) -> sorted_psbt0 q.
Proof. intros H [] Hf. revert Hf. pose proof (sb0_rest _ _ H) as E. revert E. generalize (p0_inputs q). intros l -> Hf. destruct p. constructor; cbn in *; assumption. Qed.
Lemma same_signed0_one p q : same_but_signed0 p q -> one_map_per_input p -> one_map_per_input q.
Proof. intros H. unfold one_map_per_input. now rewrite (same_signed0_tx _ _ H), (same_signed0_len _ _ H). Qed.
Lemma spend_at_nth p n i : one_map_per_input p -> nth_error (p0_inputs p) (N.to_nat n) = Some i -> exists t, spend_at p n (t, i).
Proof.
  intros H Hi. assert (Hl : (N.to_nat n < length (p0_inputs p))%nat) by (apply nth_error_Some; congruence).
  destruct (spend_at_ex p n) as [[t j] Hs]; [unfold blen; lia|unfold blen, one_map_per_input in *; lia|]. exists t.
  pose proof Hs as Hs'. apply spend_at_iff in Hs' as [_ Hj]. congruence.
Qed.

(** [q] is [p] with the signatures of the signers [ks]. *)
Fixpoint first_of {A} (f : provider -> option A) (ks : list provider) : option A :=
  match ks with [] => None | k :: r => over (f k) (first_of f r) end.
Record state (p : psbt0) (ks : list provider) (q : psbt0) : Prop := {
  st_same : same_but_signed0 p q;
  st_sorted : sorted_psbt0 q;
  st_sigs : forall n i j, nth_error (p0_inputs p) (N.to_nat n) = Some i -> nth_error (p0_inputs q) (N.to_nat n) = Some j ->
    (forall pk, m_get sk_pubkey pk (i0_partial_sigs j) = over (first_of (fun k => made_ecdsa k p n pk) ks) (m_get sk_pubkey pk (i0_partial_sigs i)))
    /\ i0_tap_key_sig j = over (i0_tap_key_sig i) (first_of (fun k => made_key k p n) ks)
    /\ (forall x lh, m_get sk_xleaf (x, lh) (i0_tap_script_sigs j) = over (m_get sk_xleaf (x, lh) (i0_tap_script_sigs i)) (first_of (fun k => made_leaf k p n x lh) ks))
}.
Definition agreed {A} (f : provider -> option A) (ks : list provider) : Prop :=
  forall k k' a b, In k ks -> In k' ks -> f k = Some a -> f k' = Some b -> a = b.
Lemma first_of_iff {A} (f : provider -> option A) ks a : agreed f ks -> (first_of f ks = Some a <-> exists k, In k ks /\ f k = Some a).
Proof.
  induction ks as [|k ks IH]; intros Ha; cbn [first_of].
  - split; [discriminate|intros (k & [] & _)].
  - assert (Ha' : agreed f ks) by (intros k1 k2 x y H1 H2; apply Ha; now right). unfold over. destruct (f k) as [b|] eqn:E.
    + split; [intros [= <-]; exists k; split; [now left|exact E]|]. intros (k' & Hk & E'). f_equal. exact (Ha k k' b a (or_introl eq_refl) Hk E E').
    + rewrite (IH Ha'). split; intros (k' & Hk & E'); exists k'; (split; [|exact E']); [now right|]. destruct Hk as [<-|Hk]; [congruence|exact Hk].
Qed.
Lemma first_of_set {A} (f : provider -> option A) ks ks' : agreed f ks -> (forall k, In k ks <-> In k ks') -> first_of f ks = first_of f ks'.
Proof.
  intros Ha H. apply same_iff. intros a. rewrite (first_of_iff f ks a Ha), (first_of_iff f ks' a).
  - split; intros (k & Hk & E); exists k; (split; [now apply H|exact E]).
  - intros k k' x y H1 H2. apply Ha; now apply H.
Qed.
Lemma first_of_app {A} (f : provider -> option A) ks ks' : first_of f (ks ++ ks') = over (first_of f ks) (first_of f ks').
Proof. induction ks as [|k ks IH]; cbn [app first_of]; [reflexivity|]. rewrite IH. unfold over. now destruct (f k). Qed.
Lemma agreed_sub {A} (f : provider -> option A) ks ks' : agreed f ks -> (forall k, In k ks' -> In k ks) -> agreed f ks'.
Proof. intros Ha H k k' a b H1 H2. apply Ha; auto. Qed.

Lemma agree_ecdsa p ks n pk : (forall k k', In k ks -> In k' ks -> in_agreement p k k') -> agreed (fun k => made_ecdsa k p n pk) ks.
Proof.
  intros H k k' a b Hk Hk' Ea Eb. unfold made_ecdsa in *. destruct (psbt0_signing_algorithm p n) as [[|]|e|]; try discriminate.
  destruct (psbt0_sighash_ecdsa p n (p0_unsigned_tx p)) as [[m ty]|e|]; try discriminate.
  destruct (nth_error (p0_inputs p) (N.to_nat n)) as [i|] eqn:Ei; try discriminate.
  apply add_sigs_get in Ea as [Ea|[_ Ea]]; [|discriminate]. apply add_sigs_get in Eb as [Eb|[_ Eb]]; [|discriminate].
  destruct Ea as (l1 & sk & l2 & E1 & P1 & _ & ->), Eb as (l1' & sk' & l2' & E2 & P2 & _ & ->).
  do 2 f_equal. apply (ia_ecdsa _ _ _ (H k k' Hk Hk') i (found k (i0_bip32_derivation i)) (found k' (i0_bip32_derivation i)) sk sk').
  - eapply nth_error_In; eassumption.
  - now apply found_iff.
  - now apply found_iff.
  - rewrite E1. apply in_or_app. right. now left.
  - rewrite E2. apply in_or_app. right. now left.
  - congruence.
Qed.
Lemma key_of_agree p k k' i x lhs lhs' a b : in_agreement p k k' -> In i (p0_inputs p) -> sorted_origins i ->
  key_of k i x = Some (lhs, a) -> key_of k' i x = Some (lhs', b) -> lhs = lhs' /\ pv_secret a = pv_secret b.
Proof.
  intros H Hi Hs Ha Hb. apply (key_of_iff k i x _ _ Hs) in Ha as (src & H1 & H2). apply (key_of_iff k' i x _ _ Hs) in Hb as (src' & H3 & H4).
  destruct (origins_pre i Hs) as [_ Hg]. pose proof (Hg _ _ H1) as G1. pose proof (Hg _ _ H3) as G3. rewrite G1 in G3. injection G3 as <- <-.
  split; [reflexivity|]. exact (ia_taproot _ _ _ H i x lhs src a b Hi H1 H2 H4).
Qed.
Lemma agree_key p ks n : sorted_psbt0 p -> (forall k k', In k ks -> In k' ks -> in_agreement p k k') -> agreed (fun k => made_key k p n) ks.
Proof.
  intros Hs H k k' a b Hk Hk' Ea Eb. unfold made_key in *. destruct (psbt0_signing_algorithm p n) as [[|]|e|]; try discriminate.
  destruct (psbt0_sighash_taproot p n (p0_unsigned_tx p) None) as [[m ty]|e|]; try discriminate.
  destruct (nth_error (p0_inputs p) (N.to_nat n)) as [i|] eqn:Ei; try discriminate. apply nth_error_In in Ei.
  destruct (i0_tap_internal_key i) as [x|]; [|discriminate]. destruct (key_of k i x) as [[[|] sk]|] eqn:Ek; try discriminate. destruct (key_of k' i x) as [[[|] sk']|] eqn:Ek'; try discriminate.
  destruct (key_of_agree p k k' i x _ _ _ _ (H k k' Hk Hk') Ei (ready_origins p i Hs Ei) Ek Ek') as [_ E]. rewrite E in Ea. congruence.
Qed.
Lemma agree_leaf p ks n x lh : sorted_psbt0 p -> (forall k k', In k ks -> In k' ks -> in_agreement p k k') -> agreed (fun k => made_leaf k p n x lh) ks.
Proof.
  intros Hs H k k' a b Hk Hk' Ea Eb. unfold made_leaf in *. destruct (psbt0_signing_algorithm p n) as [[|]|e|]; try discriminate.
  destruct (psbt0_sighash_taproot p n (p0_unsigned_tx p) (Some lh)) as [[m ty]|e|]; try discriminate.
  destruct (nth_error (p0_inputs p) (N.to_nat n)) as [i|] eqn:Ei; try discriminate. apply nth_error_In in Ei.
  destruct (key_of k i x) as [[lhs sk]|] eqn:Ek; try discriminate. destruct (key_of k' i x) as [[lhs' sk']|] eqn:Ek'; try discriminate.
  destruct (key_of_agree p k k' i x _ _ _ _ (H k k' Hk Hk') Ei (ready_origins p i Hs Ei) Ek Ek') as [_ E].
  destruct (existsb _ lhs); [|discriminate]. destruct (existsb _ lhs'); [|discriminate]. rewrite E in Ea. congruence.
Qed.
Lemma fresh_ecdsa p k n i pk g o : no_old_signature0 k p -> one_map_per_input p -> nth_error (p0_inputs p) (N.to_nat n) = Some i ->
  made_ecdsa k p n pk = Some g -> m_get sk_pubkey pk (i0_partial_sigs i) = Some o -> o = g.
Proof.
  intros Hf Hone Hi Hm Ho. destruct (spend_at_nth p n i Hone Hi) as [t Hs]. unfold made_ecdsa in Hm.
  destruct (psbt0_signing_algorithm p n) as [[|]|e|]; try discriminate.
  destruct (psbt0_sighash_ecdsa p n (p0_unsigned_tx p)) as [[m ty]|e|] eqn:Em; try discriminate. rewrite Hi in Hm.
  apply add_sigs_get in Hm as [Hm|[_ Hm]]; [|discriminate]. pose proof (spend_at_lt _ _ _ Hs) as [_ Hn].
  apply (signature_fun (found k (i0_bip32_derivation i)) m ty pk); [|exact Hm].
  apply (Hf n (t, i) (found k (i0_bip32_derivation i)) m ty pk o Hs).
  - now apply found_iff.
  - now apply sighash0_iff.
  - now apply signature_in in Hm.
  - exact Ho.
Qed.

Lemma state_start p : sorted_psbt0 p -> state p [] p.
Proof.
  intros H. constructor; [apply same_signed0_refl|exact H|]. intros n i j Hi Hj. assert (i = j) by congruence. subst j. cbn [first_of].
  split; [reflexivity|]. split; [now destruct (i0_tap_key_sig i)|]. intros x lh. now destruct (m_get sk_xleaf (x, lh) (i0_tap_script_sigs i)).
Qed.
Lemma same_signed0_trans p q r : same_but_signed0 p q -> same_but_signed0 q r -> same_but_signed0 p r.
Proof.
  intros [H1 F1] [H2 F2]. constructor.
  - rewrite H2, H1. now destruct p.
  - revert F1 F2. generalize (p0_inputs p) (p0_inputs q) (p0_inputs r). intros a b c F1. revert c.
    induction F1 as [|x y a b Hxy _ IH]; intros c F2; inversion F2 as [|y' z b' c' Hyz F2']; subst; constructor; [exact (same_sigs0_trans _ _ _ Hxy Hyz)|auto].
Qed.
Lemma over_comm {A} (o a b : option A) : (forall x y, a = Some x -> b = Some y -> x = y) -> over (over o a) b = over o (over b a).
Proof. intros H. destruct o; [reflexivity|]. cbn. destruct a as [x|], b as [y|]; cbn; try reflexivity. now rewrite (H x y). Qed.
Lemma state_sign p ks q k r used errs : sorted_psbt0 p -> one_map_per_input p -> (forall a b, In a (k :: ks) -> In b (k :: ks) -> in_agreement p a b) ->
  state p ks q -> psbt0_sign k q = Ok (r, used, errs) -> state p (k :: ks) r.
Proof.
  intros Hp Hone Hag [S1 S2 S3] H. pose proof (sign0_bounds k q _ H) as Hb. pose proof (sign0_same k _ _ _ _ H) as Hsame.
  pose proof (same_signed0_one _ _ S1 Hone) as Hone'.
  assert (Hstep : forall n j, nth_error (p0_inputs q) (N.to_nat n) = Some j -> exists t, spend_at q n (t, j) /\ n < blen (p0_inputs q)).
  { intros n j Hj. destruct (spend_at_nth q n j Hone' Hj) as [t Ht]. exists t. split; [exact Ht|]. now apply spend_at_lt in Ht. }
  constructor.
  - exact (same_signed0_trans _ _ _ S1 Hsame).
  - apply (same_signed0_sorted q r Hsame S2). apply Forall_forall. intros l Hl. apply In_nth_error in Hl as [a Ha].
    assert (Ha' : (a < length (p0_inputs q))%nat) by (rewrite <- (same_signed0_len _ _ Hsame); apply nth_error_Some; congruence).
    destruct (nth_error (p0_inputs q) a) as [j|] eqn:Ej; [|apply nth_error_None in Ej; lia].
    destruct (Hstep (N.of_nat a) j) as (t & Ht & Hlt); [now rewrite Nat2N.id|]. pose proof (sp0_inputs _ S2) as Hf. rewrite Forall_forall in Hf.
    pose proof (Hf j (nth_error_In _ _ Ej)) as Hj. pose proof (sign0_nth k _ _ _ _ _ H Hlt) as Hr. rewrite Nat2N.id, Ha, Ej in Hr.
    destruct (outcome0 k q (N.of_nat a)) as [[l' u]|e|] eqn:Eo; injection Hr as ->; [|exact Hj|exact Hj].
    exact (outcome0_sorted k q _ (t, j) l' u Hb Ht Hj Eo).
  - intros n i l Hi Hl. destruct (nth_error (p0_inputs q) (N.to_nat n)) as [j|] eqn:Ej.
    2:{ exfalso. apply nth_error_None in Ej. rewrite <- (same_signed0_len _ _ Hsame) in Ej. apply nth_error_None in Ej. congruence. }
    destruct (Hstep n j Ej) as (t & Ht & Hlt). destruct (S3 n i j Hi Ej) as (G1 & G2 & G3).
    destruct (made_same k p q n S1) as (M1 & M2 & M3). pose proof (sign0_nth k _ _ _ _ _ H Hlt) as Hr. rewrite Hl, Ej in Hr.
    pose proof (outcome0_sigs k q n (t, j) Hb Ht (ready_origins q j S2 (nth_error_In _ _ Ej))) as Ho. cbn [snd] in Ho.
    assert (Hres : (forall pk, m_get sk_pubkey pk (i0_partial_sigs l) = over (made_ecdsa k q n pk) (m_get sk_pubkey pk (i0_partial_sigs j)))
      /\ i0_tap_key_sig l = over (i0_tap_key_sig j) (made_key k q n)
      /\ (forall x lh, m_get sk_xleaf (x, lh) (i0_tap_script_sigs l) = over (m_get sk_xleaf (x, lh) (i0_tap_script_sigs j)) (made_leaf k q n x lh))).
    { destruct (outcome0 k q n) as [[l' u]|e|]; [|..|contradiction]; injection Hr as ->; exact Ho. }
    destruct Hres as (R1 & R2 & R3). split; [|split].
    + intros pk. rewrite R1, M1, G1. cbn [first_of]. unfold over. now destruct (made_ecdsa k p n pk).
    + rewrite R2, M2, G2. cbn [first_of]. apply over_comm. intros x y Hx Hy.
      pose proof (agree_key p (k :: ks) n Hp Hag) as Ha. apply (first_of_iff _ ks) in Hx as (k' & Hk' & Hx); [|apply (agreed_sub _ _ _ Ha); intros; now right].
      exact (Ha k' k x y (or_intror Hk') (or_introl eq_refl) Hx Hy).
    + intros x lh. rewrite R3, M3, G3. cbn [first_of]. apply over_comm. intros a b Hx Hy.
      pose proof (agree_leaf p (k :: ks) n x lh Hp Hag) as Ha. apply (first_of_iff _ ks) in Hx as (k' & Hk' & Hx); [|apply (agreed_sub _ _ _ Ha); intros; now right].
      exact (Ha k' k a b (or_intror Hk') (or_introl eq_refl) Hx Hy).
Qed.

(** ** Combining *)

Lemma over_opt {A} (a b : option A) : comb_opt a b = over a b. Proof. reflexivity. Qed.
Lemma combine_same_sigs i a b : sorted_input0 i -> same_but_sigs0 i a -> same_but_sigs0 i b ->
  input0_combine a b = set_i0_tap_script_sigs (comb_map sk_xleaf (i0_tap_script_sigs a) (i0_tap_script_sigs b))
    (set_i0_tap_key_sig (comb_opt (i0_tap_key_sig a) (i0_tap_key_sig b))
      (set_i0_partial_sigs (comb_map sk_pubkey (i0_partial_sigs a) (i0_partial_sigs b)) i)).
Proof.
  intros [H1 H2 H3 H4 H5 H6 H7 H8 H9 H10 H11] Ha Hb. unfold same_but_sigs0 in *. rewrite Ha, Hb.
  generalize (i0_tap_script_sigs a) (i0_tap_script_sigs b) (i0_tap_key_sig a) (i0_tap_key_sig b) (i0_partial_sigs a) (i0_partial_sigs b).
  intros sa sb ka kb pa pb. destruct i. cbn in *. unfold input0_combine, input0_combine_utxo. cbn -[comb_map comb_opt]. rewrite !comb_opt_self.
  rewrite (comb_map_self _ bkey_inj _ H2), (comb_map_self _ bkey_inj _ H3), (comb_map_self _ bkey_inj _ H4),
    (comb_map_self _ bkey_inj _ H5), (comb_map_self _ bkey_inj _ H6),
    (comb_map_self _ sk_controlblock_inj _ H8), (comb_map_self _ bkey_inj _ H9), (comb_map_self _ sk_propkey_inj _ H10),
    (comb_map_self _ sk_key_inj _ H11).
  match goal with |- context [match ?w with Some _ => _ | None => _ end] => now destruct w end.
Qed.
Lemma zip_combine_nth2 {A} (f : A -> A -> A) l : forall l' n a b, nth_error l n = Some a -> nth_error l' n = Some b ->
  nth_error (zip_combine f l l') n = Some (f a b).
Proof. induction l as [|x l IH]; intros [|y l'] [|n] a b Ha Hb; cbn in *; try discriminate; [now injection Ha as <-; injection Hb as <-|now apply IH]. Qed.
Lemma combine_same_signed p q q' : sorted_psbt0 p -> same_but_signed0 p q -> same_but_signed0 p q' ->
  psbt0_combine q q' = Ok (set_p0_inputs (zip_combine input0_combine (p0_inputs q) (p0_inputs q')) p).
Proof.
  intros [H1 H2 H3 H4 H5] Hq Hq'. pose proof (sb0_rest _ _ Hq) as Eq. pose proof (sb0_rest _ _ Hq') as Eq'. rewrite Eq, Eq'.
  generalize (p0_inputs q) (p0_inputs q'). intros a b. clear Hq Hq' Eq Eq'. apply psbt0_combine_ok. destruct p. cbn in *. split; [reflexivity|]. eexists. split.
  - apply merge_self_step. intros x k0 Hi. now apply (m_in_get sk_xpub).
  - unfold combined0. cbn -[comb_map comb_opt N.max zip_combine]. rewrite N.max_id, (comb_map_self _ sk_propkey_inj _ H2), (comb_map_self _ sk_key_inj _ H3).
    rewrite (zip_combine_self output0_combine); [reflexivity|]. eapply Forall_impl; [|exact H5]. apply output0_combine_self.
Qed.
Lemma comb_sorted {K V} (sk : K -> list N) (inj_sk : forall a b, sk a = sk b -> a = b) (a b : list (K * V)) : m_sorted sk a -> m_sorted sk (comb_map sk a b).
Proof. intros H. unfold comb_map. now apply m_extend_is_sorted. Qed.

Lemma state_combine p ks q ks' q' : sorted_psbt0 p -> one_map_per_input p -> team p (ks ++ ks') ->
  state p ks q -> state p ks' q' -> exists r, psbt0_combine q q' = Ok r /\ state p (ks ++ ks') r.
Proof.
  intros Hp Hone [Hag Hfr] [S1 S2 S3] [R1 R2 R3]. eexists. split; [exact (combine_same_signed p q q' Hp S1 R1)|].
  set (l := zip_combine input0_combine (p0_inputs q) (p0_inputs q')).
  assert (Hl : forall n i, nth_error (p0_inputs p) n = Some i -> exists j j', nth_error (p0_inputs q) n = Some j /\ nth_error (p0_inputs q') n = Some j'
             /\ same_but_sigs0 i j /\ same_but_sigs0 i j' /\ sorted_input0 i /\ sorted_input0 j /\ sorted_input0 j' /\ nth_error l n = Some (input0_combine j j')).
  { intros n i Hi. assert (Hn : (n < length (p0_inputs p))%nat) by (apply nth_error_Some; congruence).
    destruct (nth_error (p0_inputs q) n) as [j|] eqn:Ej; [|apply nth_error_None in Ej; rewrite (same_signed0_len _ _ S1) in Ej; lia].
    destruct (nth_error (p0_inputs q') n) as [j'|] eqn:Ej'; [|apply nth_error_None in Ej'; rewrite (same_signed0_len _ _ R1) in Ej'; lia].
    exists j, j'. split; [reflexivity|]. split; [reflexivity|]. split; [exact (F2_get _ _ _ (sb0_inputs _ _ S1) _ _ _ Hi Ej)|]. split; [exact (F2_get _ _ _ (sb0_inputs _ _ R1) _ _ _ Hi Ej')|].
    split; [exact (proj1 (Forall_forall _ _) (sp0_inputs _ Hp) _ (nth_error_In _ _ Hi))|]. split; [exact (proj1 (Forall_forall _ _) (sp0_inputs _ S2) _ (nth_error_In _ _ Ej))|].
    split; [exact (proj1 (Forall_forall _ _) (sp0_inputs _ R2) _ (nth_error_In _ _ Ej'))|]. now apply zip_combine_nth2. }
  assert (Hlen : length l = length (p0_inputs p)) by (unfold l; rewrite zip_combine_length; exact (same_signed0_len _ _ S1)).
  assert (Hin : p0_inputs (set_p0_inputs l p) = l) by (now destruct p).
  assert (Hsb : same_but_signed0 p (set_p0_inputs l p)).
  { constructor; [now destruct p|]. rewrite Hin. apply F2_of_nth; [now symmetry|]. intros n i c Hi Hc. destruct (Hl n i Hi) as (j & j' & _ & _ & B1 & B2 & B3 & _ & _ & B4).
    rewrite B4 in Hc. injection Hc as <-. rewrite (combine_same_sigs i j j' B3 B1 B2). unfold same_but_sigs0. now destruct i. }
  assert (Hso : forall a b c d, sorted_input0 d -> m_sorted sk_xleaf a -> m_sorted sk_pubkey c -> sorted_input0 (set_i0_tap_script_sigs a (set_i0_tap_key_sig b (set_i0_partial_sigs c d)))).
  { intros a b c d [] Ha Hc. destruct d. constructor; cbn in *; assumption. }
  constructor.
  - exact Hsb.
  - apply (same_signed0_sorted p _ Hsb Hp). rewrite Hin. apply Forall_forall. intros c Hc. apply In_nth_error in Hc as [n Hn].
    assert (Hlt : (n < length (p0_inputs p))%nat) by (rewrite <- Hlen; apply nth_error_Some; congruence).
    destruct (nth_error (p0_inputs p) n) as [i|] eqn:Ei; [|apply nth_error_None in Ei; lia]. destruct (Hl n i Ei) as (j & j' & _ & _ & B1 & B2 & B3 & B4 & B5 & B6).
    rewrite B6 in Hn. injection Hn as <-. rewrite (combine_same_sigs i j j' B3 B1 B2). apply Hso; [exact B3|..].
    + apply (comb_sorted _ sk_xleaf_inj). apply B4.
    + apply (comb_sorted _ sk_pubkey_inj). apply B4.
  - rewrite Hin. intros n i c Hi Hc. destruct (Hl _ i Hi) as (j & j' & E1 & E2 & B1 & B2 & B3 & B4 & B5 & B6). rewrite B6 in Hc. injection Hc as <-.
    rewrite (combine_same_sigs i j j' B3 B1 B2). destruct (S3 n i j Hi E1) as (G1 & G2 & G3). destruct (R3 n i j' Hi E2) as (K1 & K2 & K3).
    assert (Hsub : forall k, In k ks -> In k (ks ++ ks')) by (intros; apply in_or_app; now left).
    assert (Hsub' : forall k, In k ks' -> In k (ks ++ ks')) by (intros; apply in_or_app; now right).
    split; [|split].
    + intros pk. replace (i0_partial_sigs (set_i0_tap_script_sigs _ _)) with (comb_map sk_pubkey (i0_partial_sigs j) (i0_partial_sigs j')) by (now destruct i).
      rewrite (m_get_comb_map _ sk_pubkey_inj) by apply B5. rewrite over_opt, G1, K1, first_of_app.
      pose proof (agree_ecdsa p (ks ++ ks') n pk Hag) as Ha.
      destruct (first_of (fun k => made_ecdsa k p n pk) ks) as [a|] eqn:Ea; destruct (first_of (fun k => made_ecdsa k p n pk) ks') as [b|] eqn:Eb; cbn [over]; try reflexivity.
      * apply (first_of_iff _ ks) in Ea as (k & Hk & Ea); [|exact (agreed_sub _ _ _ Ha Hsub)]. apply (first_of_iff _ ks') in Eb as (k' & Hk' & Eb); [|exact (agreed_sub _ _ _ Ha Hsub')].
        f_equal. symmetry. exact (Ha k k' a b (Hsub _ Hk) (Hsub' _ Hk') Ea Eb).
      * destruct (m_get sk_pubkey pk (i0_partial_sigs i)) as [o|] eqn:Eo; [|reflexivity].
        apply (first_of_iff _ ks) in Ea as (k & Hk & Ea); [|exact (agreed_sub _ _ _ Ha Hsub)].
        cbn [over]. f_equal. exact (fresh_ecdsa p k n i pk a o (Hfr k (Hsub _ Hk)) Hone Hi Ea Eo).
      * unfold over. now destruct (m_get sk_pubkey pk (i0_partial_sigs i)).
    + replace (i0_tap_key_sig (set_i0_tap_script_sigs _ _)) with (comb_opt (i0_tap_key_sig j) (i0_tap_key_sig j')) by (now destruct i).
      rewrite over_opt, G2, K2, first_of_app. unfold over. now destruct (i0_tap_key_sig i), (first_of (fun k => made_key k p n) ks).
    + intros x lh. replace (i0_tap_script_sigs (set_i0_tap_script_sigs _ _)) with (comb_map sk_xleaf (i0_tap_script_sigs j) (i0_tap_script_sigs j')) by (now destruct i).
      rewrite (m_get_comb_map _ sk_xleaf_inj) by apply B5. rewrite over_opt, G3, K3, first_of_app.
      pose proof (agree_leaf p (ks ++ ks') n x lh Hp Hag) as Ha.
      destruct (m_get sk_xleaf (x, lh) (i0_tap_script_sigs i)) as [o|]; [reflexivity|]. cbn [over].
      destruct (first_of (fun k => made_leaf k p n x lh) ks) as [a|] eqn:Ea; destruct (first_of (fun k => made_leaf k p n x lh) ks') as [b|] eqn:Eb; cbn [over]; try reflexivity.
      apply (first_of_iff _ ks) in Ea as (k & Hk & Ea); [|exact (agreed_sub _ _ _ Ha Hsub)]. apply (first_of_iff _ ks') in Eb as (k' & Hk' & Eb); [|exact (agreed_sub _ _ _ Ha Hsub')].
      f_equal. symmetry. exact (Ha k k' a b (Hsub _ Hk) (Hsub' _ Hk') Ea Eb).
Qed.

(** ** The result depends only on who signed *)

Lemma state_unique p ks ks' q q' : sorted_psbt0 p -> (forall a b, In a ks -> In b ks -> in_agreement p a b) -> (forall k, In k ks <-> In k ks') ->
  state p ks q -> state p ks' q' -> q = q'.
Proof.
  intros Hp Hag Hset [S1 S2 S3] [R1 R2 R3]. rewrite (sb0_rest _ _ S1), (sb0_rest _ _ R1). f_equal. apply nth_ext_N. intros n.
  destruct (nth_error (p0_inputs p) (N.to_nat n)) as [i|] eqn:Ei.
  - assert (Hn : (N.to_nat n < length (p0_inputs p))%nat) by (apply nth_error_Some; congruence).
    destruct (nth_error (p0_inputs q) (N.to_nat n)) as [j|] eqn:Ej; [|apply nth_error_None in Ej; rewrite (same_signed0_len _ _ S1) in Ej; lia].
    destruct (nth_error (p0_inputs q') (N.to_nat n)) as [j'|] eqn:Ej'; [|apply nth_error_None in Ej'; rewrite (same_signed0_len _ _ R1) in Ej'; lia].
    f_equal. pose proof (F2_get _ _ _ (sb0_inputs _ _ S1) _ _ _ Ei Ej) as B1. pose proof (F2_get _ _ _ (sb0_inputs _ _ R1) _ _ _ Ei Ej') as B2.
    destruct (S3 n i j Ei Ej) as (G1 & G2 & G3). destruct (R3 n i j' Ei Ej') as (K1 & K2 & K3).
    pose proof (proj1 (Forall_forall _ _) (sp0_inputs _ S2) _ (nth_error_In _ _ Ej)) as Sj. pose proof (proj1 (Forall_forall _ _) (sp0_inputs _ R2) _ (nth_error_In _ _ Ej')) as Sj'.
    unfold same_but_sigs0 in *. rewrite B1, B2. f_equal; [|f_equal; [|f_equal]].
    + apply (m_ext sk_xleaf sk_xleaf_inj); [apply Sj|apply Sj'|]. intros [x lh]. rewrite G3, K3. now rewrite (first_of_set _ ks ks' (agree_leaf p ks n x lh Hp Hag) Hset).
    + rewrite G2, K2. now rewrite (first_of_set _ ks ks' (agree_key p ks n Hp Hag) Hset).
    + apply (m_ext sk_pubkey sk_pubkey_inj); [apply Sj|apply Sj'|]. intros pk. rewrite G1, K1. now rewrite (first_of_set _ ks ks' (agree_ecdsa p ks n pk Hag) Hset).
  - apply nth_error_None in Ei. rewrite !(proj2 (nth_error_None _ _)); [reflexivity|rewrite (same_signed0_len _ _ R1); lia|rewrite (same_signed0_len _ _ S1); lia].
Qed.
Lemma team_sub p ks ks' : team p ks -> (forall k, In k ks' -> In k ks) -> team p ks'.
Proof. intros [H1 H2] H. constructor; auto. Qed.
Lemma made_state p ks q : sorted_psbt0 p -> one_map_per_input p -> team p ks -> made p ks q -> state p ks q.
Proof.
  intros Hp Hone Ht H. revert Ht. induction H as [|k ks q r used errs H IH Hs|ks ks' q q' r H IH H' IH' Hc]; intros Ht.
  - now apply state_start.
  - apply (state_sign p ks q k r used errs Hp Hone (tm_agree _ _ Ht)); [|exact Hs]. apply IH. apply (team_sub _ _ _ Ht). intros; now right.
  - destruct (state_combine p ks q ks' q' Hp Hone Ht) as (r' & Hr & Hst).
    + apply IH, (team_sub _ _ _ Ht). intros; apply in_or_app; now left.
    + apply IH', (team_sub _ _ _ Ht). intros; apply in_or_app; now right.
    + rewrite Hc in Hr. inj Hr. now subst.
Qed.

(** ** Signing and combining always go on, with the same errors *)

Lemma vouts_same p q : same_but_signed0 p q -> vouts_in_bounds p -> vouts_in_bounds q.
Proof.
  intros H Hb. apply in_bounds_iff. intros He. apply in_bounds_iff in Hb. apply Hb. apply Exists_exists in He as (s & Hin & Ho). apply In_nth_error in Hin as [a Ha].
  assert (Hs : spend_at q (N.of_nat a) s) by (unfold spend_at; now rewrite Nat2N.id). destruct s as [t j]. apply spend_at_iff in Hs as [H1 H2].
  assert (Hlt : (N.to_nat (N.of_nat a) < length (p0_inputs p))%nat) by (rewrite <- (same_signed0_len _ _ H); apply nth_error_Some; congruence).
  destruct (nth_error (p0_inputs p) (N.to_nat (N.of_nat a))) as [i|] eqn:Ei; [|apply nth_error_None in Ei; lia].
  pose proof (F2_get _ _ _ (sb0_inputs _ _ H) _ _ _ Ei H2) as Hij. apply same_sigs0_fields in Hij as (Hw & Hnw & _).
  apply Exists_exists. exists (t, i). split.
  - apply (nth_error_In _ (N.to_nat (N.of_nat a))). change (spend_at p (N.of_nat a) (t, i)). apply spend_at_iff. rewrite <- (same_signed0_tx _ _ H). auto.
  - unfold vout_out_of_bounds in *. cbn [fst snd] in *. now rewrite <- Hw, <- Hnw.
Qed.
Lemma state_errors p ks q k p' used errs : sorted_psbt0 p -> one_map_per_input p -> (forall a b, In a ks -> In b ks -> in_agreement p a b) ->
  state p ks q -> psbt0_sign k p = Ok (p', used, errs) -> exists r used', psbt0_sign k q = Ok (r, used', errs).
Proof.
  intros Hp Hone Hag [S1 S2 S3] H. pose proof (sign0_bounds k p _ H) as Hb. pose proof (vouts_same p q S1 Hb) as Hb'.
  destruct (sign0_ok k q Hb') as (r & used' & errs' & Hq). exists r, used'. rewrite Hq. do 2 f_equal.
  pose proof (sign0_spec k p) as Hs1. rewrite H in Hs1. destruct Hs1 as (_ & _ & _ & _ & ->).
  pose proof (sign0_spec k q) as Hs2. rewrite Hq in Hs2. destruct Hs2 as (_ & _ & _ & _ & ->).
  pose proof (same_signed0_one _ _ S1 Hone) as Hone'.
  assert (Hidx : input_indices0 q = input_indices0 p) by (unfold input_indices0; now rewrite (same_signed0_len _ _ S1)). rewrite Hidx.
  assert (G : forall l, (forall n, In n l -> n < blen (p0_inputs p)) -> flat_map (errs_at k q) l = flat_map (errs_at k p) l).
  2:{ apply G. intros n. apply indices0_in. }
  induction l as [|n l IH]; intros Hl; [reflexivity|]. cbn [flat_map]. rewrite IH by (intros; apply Hl; now right). f_equal.
  specialize (Hl n (or_introl eq_refl)). clear IH.
  destruct (spend_at_ex p n Hl) as [[t i] Hs]; [unfold blen, one_map_per_input in *; lia|]. pose proof Hs as Hs'. apply spend_at_iff in Hs' as [Hti Hi].
  destruct (nth_error (p0_inputs q) (N.to_nat n)) as [j|] eqn:Ej.
  2:{ exfalso. apply nth_error_None in Ej. rewrite (same_signed0_len _ _ S1) in Ej. apply nth_error_None in Ej. congruence. }
  pose proof (F2_get _ _ _ (sb0_inputs _ _ S1) _ _ _ Hi Ej) as Hij. pose proof (same_sigs0_fields _ _ Hij) as (Hw & Hnw & _ & _ & _ & Hder & Hor & Hint & _).
  assert (Hsq : spend_at q n (t, j)) by (apply spend_at_iff; rewrite (same_signed0_tx _ _ S1); auto).
  destruct (digests0_related p q n (p0_unsigned_tx p) S1) as (Da & De & Dt). pose proof (same_signed0_tx _ _ S1) as Htx.
  pose proof (in_bounds_at p n _ Hb Hs) as Bp. pose proof (in_bounds_at q n _ Hb' Hsq) as Bq.
  assert (Hk : spends_ecdsa (t, j) <-> spends_ecdsa (t, i)) by (rewrite <- (spends_ecdsa_iff q n _ Hsq), <- (spends_ecdsa_iff p n _ Hs), Da; reflexivity).
  assert (Hk' : spends_taproot (t, j) <-> spends_taproot (t, i)) by (rewrite <- (spends_taproot_iff q n _ Hsq), <- (spends_taproot_iff p n _ Hs), Da; reflexivity).
  unfold errs_at. destruct (kinds_dec p n _ Hs) as [He|[Ht|[He Ht]]].
  - rewrite (outcome0_ecdsa k p n _ Hs Bp He), (outcome0_ecdsa k q n _ Hsq Bq (proj2 Hk He)), Htx, De. cbn [snd]. rewrite Hder.
    destruct (psbt0_sighash_ecdsa p n (p0_unsigned_tx p)) as [[m ty]|e|]; try reflexivity. now destruct (is_empty _).
  - rewrite (outcome0_taproot k p n _ Hs Ht), (outcome0_taproot k q n _ Hsq (proj2 Hk' Ht)), Htx. cbn [snd]. rewrite Hor.
    pose proof (ready_origins p i Hp (nth_error_In _ _ Hi)) as Oi. pose proof (ready_origins q j S2 (nth_error_In _ _ Ej)) as Oj.
    destruct (origins_pre i Oi) as [Ni Gi]. destruct (origins_pre j Oj) as [Nj Gj]. rewrite Hor in Nj, Gj. destruct (S3 n i j Hi Ej) as (_ & S5 & S6).
    pose proof (schnorr_loop_spec k (psbt0_sighash_taproot p n (p0_unsigned_tx p)) (i0_tap_key_origins i) i [] Ni Gi) as Lp.
    pose proof (schnorr_loop_spec k (psbt0_sighash_taproot q n (p0_unsigned_tx p)) (i0_tap_key_origins i) j [] Nj) as Lq. rewrite Hor in Lq. specialize (Lq Gj).
    (* the error does not depend on the leaf, and with an error nobody signs *)
    assert (Hleaf : forall leaf leaf' e, psbt0_sighash_taproot p n (p0_unsigned_tx p) leaf = Err e -> psbt0_sighash_taproot p n (p0_unsigned_tx p) leaf' = Err e).
    { intros leaf leaf' e Ee. apply (taproot0_error p n _ leaf' e Hb Hone Hs Ht). now apply (taproot0_error p n _ leaf e Hb Hone Hs Ht). }
    assert (Hkeep : forall e, psbt0_sighash_taproot p n (p0_unsigned_tx p) None = Err e ->
       i0_tap_key_sig j = i0_tap_key_sig i /\ forall x lh, m_get sk_xleaf (x, lh) (i0_tap_script_sigs j) = m_get sk_xleaf (x, lh) (i0_tap_script_sigs i)).
    { intros e Ee.
      assert (N1 : first_of (fun k => made_key k p n) ks = None).
      { destruct (first_of _ ks) eqn:E; [|reflexivity]. apply (first_of_iff _ ks) in E as (k' & _ & E); [|exact (agree_key p ks n Hp Hag)].
        unfold made_key in E. rewrite Ee in E. now destruct (psbt0_signing_algorithm p n) as [[|]| |]. }
      assert (N2 : forall x lh, first_of (fun k => made_leaf k p n x lh) ks = None).
      { intros x lh. destruct (first_of (fun k => made_leaf k p n x lh) ks) eqn:E; [|reflexivity]. apply (first_of_iff (fun k => made_leaf k p n x lh) ks) in E as (k' & _ & E); [|exact (agree_leaf p ks n x lh Hp Hag)].
        unfold made_leaf in E. rewrite (Hleaf None (Some lh) e Ee) in E. now destruct (psbt0_signing_algorithm p n) as [[|]| |]. }
      rewrite N1 in S5. split; [rewrite S5; now destruct (i0_tap_key_sig i)|]. intros x lh. rewrite S6, N2. now destruct (m_get sk_xleaf (x, lh) (i0_tap_script_sigs i)). }
    assert (Hback : forall leaf x sk, wanted k j leaf x sk -> wanted k i leaf x sk).
    { intros leaf x sk Hwt. destruct leaf as [lh|].
      - apply (wanted_leaf k _ _ _ _ Oj) in Hwt as (W1 & lhs & W2 & W3). apply (wanted_leaf k _ _ _ _ Oi). rewrite S6 in W1.
        split; [destruct (m_get sk_xleaf (x, lh) (i0_tap_script_sigs i)); [discriminate|reflexivity]|]. exists lhs. split; [exact W2|]. unfold key_of in *. now rewrite <- Hor.
      - apply (wanted_key k _ _ _ Oj) in Hwt as (W1 & W2 & W3). apply (wanted_key k _ _ _ Oi). rewrite S5 in W2. rewrite Hint in W1.
        split; [exact W1|]. split; [destruct (i0_tap_key_sig i); [discriminate|reflexivity]|]. unfold key_of in *. now rewrite <- Hor. }
    assert (Hforth : forall e, psbt0_sighash_taproot p n (p0_unsigned_tx p) None = Err e -> forall leaf x sk, wanted k i leaf x sk -> wanted k j leaf x sk).
    { intros e Ee. destruct (Hkeep e Ee) as [K1 K2]. intros leaf x sk Hwt. destruct leaf as [lh|].
      - apply (wanted_leaf k _ _ _ _ Oi) in Hwt as (W1 & lhs & W2 & W3). apply (wanted_leaf k _ _ _ _ Oj). rewrite K2. split; [exact W1|]. exists lhs. split; [exact W2|].
        unfold key_of in *. now rewrite Hor.
      - apply (wanted_key k _ _ _ Oi) in Hwt as (W1 & W2 & W3). apply (wanted_key k _ _ _ Oj). rewrite K1, Hint. split; [exact W1|]. split; [exact W2|]. unfold key_of in *. now rewrite Hor. }
    destruct (schnorr_loop k (psbt0_sighash_taproot p n (p0_unsigned_tx p)) (i0_tap_key_origins i) i []) as [[i1 u1]|e1|];
    destruct (schnorr_loop k (psbt0_sighash_taproot q n (p0_unsigned_tx p)) (i0_tap_key_origins i) j []) as [[i2 u2]|e2|]; cbn [bind]; try reflexivity.
    + exfalso. destruct Lq as (leaf & x & sk & Hwt & Ee). rewrite <- Hor in Hwt. apply wanted_in_all, Hback in Hwt. rewrite Dt in Ee.
      destruct Lp as [Lp _]. destruct (signed_in_spec k p n i i1 Hb Lp) as [Hall _]. destruct (Hall _ _ _ Hwt) as (m & ty & Hm). apply taproot0_iff in Hm; [congruence|exact Hb].
    + exfalso. destruct Lp as (leaf & x & sk & Hwt & Ee). apply wanted_in_all in Hwt. apply (Hforth e1 (Hleaf _ _ _ Ee)) in Hwt.
      destruct Lq as [Lq _]. rewrite <- Htx in Lq. rewrite <- Hor in Lq. destruct (signed_in_spec k q n j i2 Hb' Lq) as [Hall _]. destruct (Hall _ _ _ Hwt) as (m & ty & Hm).
      apply taproot0_iff in Hm; [|exact Hb']. rewrite Htx, Dt, Ee in Hm. discriminate.
    + destruct Lp as (leaf & x & sk & _ & Ee). destruct Lq as (leaf' & x' & sk' & _ & Ee'). rewrite Dt in Ee'. apply (Hleaf leaf leaf') in Ee. rewrite Ee in Ee'. congruence.
    + destruct Lq as (leaf & x & sk & _ & Ee). rewrite Dt in Ee. exfalso. apply taproot0_panic in Ee as (a & s' & Hs' & Ho). exact (in_bounds_at p a s' Hb Hs' Ho).
    + destruct Lp as (leaf & x & sk & _ & Ee). exfalso. apply taproot0_panic in Ee as (a & s' & Hs' & Ho). exact (in_bounds_at p a s' Hb Hs' Ho).
  - destruct (outcome0_other k p n _ Hs Bp He Ht) as (e & -> & Ea). destruct (outcome0_other k q n _ Hsq Bq) as (e' & -> & Ea'); [tauto|tauto|]. congruence.
Qed.

Lemma parallel p ks ks' q q' : sorted_psbt0 p -> one_map_per_input p -> team p ks -> (forall k, In k ks <-> In k ks') ->
  made p ks q -> made p ks' q' -> q = q'.
Proof.
  intros Hp Hone Ht Hset H H'. apply (state_unique p ks ks' q q' Hp (tm_agree _ _ Ht) Hset).
  - now apply made_state.
  - apply made_state; auto. apply (team_sub _ _ _ Ht). intros k. apply Hset.
Qed.

End Parallel.
