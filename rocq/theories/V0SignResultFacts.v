(** What signing makes of each input of a v0 PSBT, and the errors it reports. *)
From Coq Require Import Sorted.
From Verif Require Import Base OMap Consensus Ext SerializeFacts SpecCodec Serialize MapCodec Script SighashType V2Roles V2RolesFacts
  V2Sign SpecSign V2SignFacts SpecPsbt V0Input V0Output V0Psbt SpecPsbt0 SpecExtract0 V0ExtractFacts V0Sign SpecSign0 V0SignFacts.
Local Open Scope N_scope.

Section Result.
Context `{X : Ext} `{S : SignExt} `{T : SchnorrExt}.
Variable k : provider.

Definition sorted_origins (i : input0) : Prop := m_sorted bkey (i0_tap_key_origins i).

Lemma ecdsa_not_taproot s : spends_ecdsa s -> spends_taproot s -> False.
Proof.
  intros (o & (u & Hu & Ho) & Hne) (v & key & Hv & Hk). rewrite (funds0_fun s v u Hv Hu) in Hk.
  apply Hne. eapply kind_unique; [exact Ho|]. now apply OKTr with key.
Qed.
Lemma wanted_dec_ecdsa p n s : spend_at p n s -> n < blen (tx_input (p0_unsigned_tx p)).
Proof. intros H. now apply spend_at_lt in H. Qed.

(** The ECDSA outcome. *)
Lemma outcome0_ecdsa p n s : spend_at p n s -> ~ vout_out_of_bounds s -> spends_ecdsa s ->
  outcome0 k p n =
  match psbt0_sighash_ecdsa p n (p0_unsigned_tx p) with
  | Ok (m, ty) => Ok (set_i0_partial_sigs (add_sigs m ty (i0_partial_sigs (snd s)) (found k (i0_bip32_derivation (snd s)))) (snd s),
                      KeysEcdsa (map public_of (found k (i0_bip32_derivation (snd s)))))
  | Err e => if is_empty (found k (i0_bip32_derivation (snd s))) then Ok (snd s, KeysEcdsa []) else Err e
  | Panic => Panic
  end.
Proof.
  intros Hs Hb He. unfold outcome0. rewrite (proj2 (spends_ecdsa_iff p n s Hs) He).
  destruct s as [t i]. apply spend_at_iff in Hs as [_ Hi]. rewrite Hi. cbn [expect bind snd].
  destruct (psbt0_sighash_ecdsa p n (p0_unsigned_tx p)) as [[m ty]|e|]; [| |reflexivity].
  - rewrite sign_loop_ok. reflexivity.
  - rewrite sign_loop_err. destruct (is_empty _); [|reflexivity]. cbn [bind]. do 2 f_equal. now destruct i.
Qed.
Lemma outcome0_taproot p n s : spend_at p n s -> spends_taproot s ->
  outcome0 k p n =
  '(i', used) <- schnorr_loop k (psbt0_sighash_taproot p n (p0_unsigned_tx p)) (i0_tap_key_origins (snd s)) (snd s) [] ;;
  Ok (i', KeysSchnorr used).
Proof.
  intros Hs He. unfold outcome0. rewrite (proj2 (spends_taproot_iff p n s Hs) He).
  destruct s as [t i]. rewrite (checked0_at p n t i Hs). reflexivity.
Qed.
Lemma outcome0_other p n s : spend_at p n s -> ~ vout_out_of_bounds s -> ~ spends_ecdsa s -> ~ spends_taproot s ->
  exists e, outcome0 k p n = Err e /\ psbt0_signing_algorithm p n = Err e.
Proof.
  intros Hs Hb He Ht. unfold outcome0. destruct (psbt0_signing_algorithm p n) as [[|]|e|] eqn:Ea.
  - apply (spends_ecdsa_iff p n s Hs) in Ea. contradiction.
  - apply (spends_taproot_iff p n s Hs) in Ea. contradiction.
  - eauto.
  - apply algorithm0_panic in Ea as (s' & Hs' & Ho). rewrite (spend_at_fun p n s s' Hs Hs') in Hb. contradiction.
Qed.
Lemma outcome0_none p n : (forall s, ~ spend_at p n s) -> exists e, outcome0 k p n = Err (S0IndexOutOfBounds e).
Proof.
  intros H. destruct (no_spend p n H) as (e & He & _). exists e. unfold outcome0. rewrite algorithm0_slot. unfold slot0. rewrite He. reflexivity.
Qed.
Lemma kinds_dec p n s : spend_at p n s -> spends_ecdsa s \/ spends_taproot s \/ ~ spends_ecdsa s /\ ~ spends_taproot s.
Proof.
  intros Hs. destruct (psbt0_signing_algorithm p n) as [[|]|e|] eqn:Ea.
  - left. now apply (spends_ecdsa_iff p n s Hs).
  - right. left. now apply (spends_taproot_iff p n s Hs).
  - right. right. split; intros H; [apply (spends_ecdsa_iff p n s Hs) in H|apply (spends_taproot_iff p n s Hs) in H]; congruence.
  - right. right. split; intros H; [apply (spends_ecdsa_iff p n s Hs) in H|apply (spends_taproot_iff p n s Hs) in H]; congruence.
Qed.

Lemma origins_pre i : sorted_origins i -> NoDup (map fst (i0_tap_key_origins i))
  /\ forall x o, In (x, o) (i0_tap_key_origins i) -> m_get bkey x (i0_tap_key_origins i) = Some o.
Proof. intros H. split; [exact (m_sorted_NoDup bkey _ H)|]. intros x o Hin. exact (m_in_get bkey _ _ _ H Hin). Qed.

Lemma signed_in_spec p n i i' : vouts_in_bounds p ->
  signed_in k (psbt0_sighash_taproot p n (p0_unsigned_tx p)) i (i0_tap_key_origins i) i' ->
  (forall leaf x sk, wanted k i leaf x sk -> exists m ty, taproot_to_sign p n leaf m ty) /\ taproot_signed k p n i i'.
Proof.
  intros Hb [H1 H2 H3 H4]. split.
  - intros leaf x sk Hw. apply wanted_in_all in Hw. apply H2 in Hw as (m & ty & Hm). exists m, ty. now apply taproot0_iff.
  - constructor; [exact H1| |].
    + intros g. rewrite H3. split; (intros [H|(x & sk & m & ty & Hw & Hm & Hg)]; [now left|right; exists x, sk, m, ty; split; [now apply wanted_in_all|split; [now apply taproot0_iff|exact Hg]]]).
    + intros x lh g. rewrite H4. split; (intros [H|(sk & m & ty & Hw & Hm & Hg)]; [now left|right; exists sk, m, ty; split; [now apply wanted_in_all|split; [now apply taproot0_iff|exact Hg]]]).
Qed.

Lemma outcome0_result p n s : vouts_in_bounds p -> spend_at p n s -> sorted_origins (snd s) ->
  match outcome0 k p n with
  | Ok (i', ks) => signed0 k p n s i' (Some ks)
  | Err e => signed0 k p n s (snd s) None
  | Panic => False
  end.
Proof.
  intros Hb Hs Hso. pose proof (in_bounds_at p n s Hb Hs) as Hbs. pose proof (spend_at_lt _ _ _ Hs) as [_ Hn].
  destruct (kinds_dec p n s Hs) as [He|[Ht|[He Ht]]].
  - rewrite (outcome0_ecdsa p n s Hs Hbs He). destruct (psbt0_sighash_ecdsa p n (p0_unsigned_tx p)) as [[m ty]|e|] eqn:Em.
    + apply S0Ecdsa with m ty; [exact He|now apply found_iff|now apply sighash0_iff|]. intros pk g. apply add_sigs_get.
    + assert (Hno : forall m ty, ~ to_sign0 p (p0_unsigned_tx p) n m ty) by (intros m ty Hm; apply sighash0_iff in Hm; [congruence|exact Hn]).
      destruct (found k (i0_bip32_derivation (snd s))) as [|a l] eqn:Ef; cbn [is_empty].
      * apply S0EcdsaNoKey; [exact He|now apply found_iff].
      * apply S0EcdsaError with (a :: l); [exact He|now apply found_iff|discriminate|exact Hno].
    + apply sighash0_panic in Em as (s' & Hs' & Ho); [|exact Hn]. rewrite (spend_at_fun p n s s' Hs Hs') in Hbs. contradiction.
  - rewrite (outcome0_taproot p n s Hs Ht). destruct (origins_pre _ Hso) as [Hnd Hget].
    pose proof (schnorr_loop_spec k (psbt0_sighash_taproot p n (p0_unsigned_tx p)) _ (snd s) [] Hnd Hget) as Hl.
    destruct (schnorr_loop _ _ _ _ _) as [[i' used]|e|]; cbn [bind].
    + destruct Hl as [Hl (u & -> & Hu)]. destruct (signed_in_spec p n _ _ Hb Hl) as [Ha Hsig].
      apply S0Taproot; [exact Ht|exact Ha|exact Hsig|]. cbn [app]. now apply keys_in_all.
    + destruct Hl as (leaf & x & sk & Hw & He). apply wanted_in_all in Hw. apply S0TaprootErr with leaf x sk; [exact Ht|exact Hw|].
      intros m ty Hm. apply taproot0_iff in Hm; [congruence|exact Hb].
    + destruct Hl as (leaf & x & sk & Hw & He). apply taproot0_panic in He as (a & s' & Hs' & Ho). exact (in_bounds_at p a s' Hb Hs' Ho).
  - destruct (outcome0_other p n s Hs Hbs He Ht) as (e & -> & _). now apply S0Other.
Qed.

(** ** Errors *)

Lemma sighash0_error p n s : spend_at p n s -> spends_ecdsa s -> forall e,
  psbt0_sighash_ecdsa p n (p0_unsigned_tx p) = Err e <-> ecdsa_error s e.
Proof.
  intros Hs (o & (u & Hu & Ho) & Hne) e. pose proof (spend_at_lt _ _ _ Hs) as [_ Hn].
  rewrite sighash0_slot, (proj2 (slot0_ok p n s u)) by auto. cbn [bind fst snd]. rewrite (proj2 (kind0_iff _ _ _) Ho).
  unfold legacy_signature_hash, p2wpkh_signature_hash0, p2wsh_signature_hash.
  replace (n <? blen (tx_input (p0_unsigned_tx p))) with true by lia.
  assert (Hk : forall o', spends_kind s o' -> o' = o).
  { intros o' (v & Hv & Ho'). rewrite (funds0_fun s v u Hv Hu) in Ho'. eapply kind_unique; eassumption. }
  assert (Hko : spends_kind s o) by (exists u; auto).
  destruct (input0_ecdsa_hash_ty (snd s)) as [ty|] eqn:Et; cbn [ok_or bind].
  2: { assert (Hno : forall ty, ~ type_of_input0 (snd s) ty) by (intros ty H; apply hash_ty0_iff in H; congruence).
       assert (Hg : Err (A := bytes * N) S0InvalidSighashType = Err e <-> ecdsa_error s e).
       { split; [intros H; injection H as <-; now apply EEType|]. intros [H|ty H|ty H]; [reflexivity|exfalso; eapply Hno; eassumption..]. }
       destruct o; solve [exact Hg|congruence]. }
  apply hash_ty0_iff in Et.
  assert (Hsh : ecdsa_error s e -> o = Sh /\ i0_redeem_script (snd s) = None /\ e = S0MissingRedeemScript
            \/ (o = Wsh \/ o = ShWsh) /\ i0_witness_script (snd s) = None /\ e = S0MissingWitnessScript).
  { intros [H|ty' H H1 H2|ty' H H1 H2]; [exfalso; eapply H; eassumption| |].
    - left. apply Hk in H1. auto.
    - right. split; [destruct H1 as [H1|H1]; apply Hk in H1; auto|auto]. }
  destruct o; try congruence.
  - cbn [expect bind]. split; [discriminate|]. intros H. apply Hsh in H as [(H & _)|([H|H] & _)]; discriminate.
  - inversion Ho as [|h Hh| | | | |]. rewrite (proj2 (script_code_iff _ (p2pkh_script h))) by eauto. cbn [ok_or bind].
    split; [discriminate|]. intros H'. apply Hsh in H' as [(H' & _)|([H'|H'] & _)]; discriminate.
  - destruct (i0_witness_script (snd s)) as [w|] eqn:Ew; cbn [ok_or bind].
    + split; [discriminate|]. intros H. apply Hsh in H as [(H & _)|(_ & H & _)]; discriminate.
    + split; [intros H; injection H as <-; eapply EEWitness; eauto|]. intros H. apply Hsh in H as [(H & _)|(_ & _ & ->)]; [discriminate|reflexivity].
  - inversion Ho as [| | |r h Hp Hr Hh| | |]. rewrite Hr. cbn [expect bind]. rewrite (proj2 (script_code_iff _ (p2pkh_script h))) by eauto. cbn [ok_or bind].
    split; [discriminate|]. intros H. apply Hsh in H as [(H & _)|([H|H] & _)]; discriminate.
  - destruct (i0_witness_script (snd s)) as [w|] eqn:Ew; cbn [ok_or bind].
    + split; [discriminate|]. intros H. apply Hsh in H as [(H & _)|(_ & H & _)]; discriminate.
    + split; [intros H; injection H as <-; eapply EEWitness; eauto|]. intros H. apply Hsh in H as [(H & _)|(_ & _ & ->)]; [discriminate|reflexivity].
  - destruct (i0_redeem_script (snd s)) as [r|] eqn:Er; cbn [ok_or bind expect].
    + split; [discriminate|]. intros H. apply Hsh in H as [(_ & H & _)|([H|H] & _)]; discriminate.
    + split; [intros H; injection H as <-; eapply EERedeem; eauto|]. intros H. apply Hsh in H as [(_ & _ & ->)|([H|H] & _)]; [reflexivity|discriminate..].
Qed.

Lemma forall_some_or {A} (l : list (option A)) : forallb is_some l = true \/ In None l.
Proof. induction l as [|[a|] l [IH|IH]]; cbn; auto. Qed.
Lemma taproot0_error p n s leaf e : vouts_in_bounds p -> one_map_per_input p -> spend_at p n s -> spends_taproot s ->
  (psbt0_sighash_taproot p n (p0_unsigned_tx p) leaf = Err e <-> taproot_error p n s e).
Proof.
  intros Hb Hone Hs (u & key & Hu & Hk). pose proof (spend_at_lt _ _ _ Hs) as [Hlt Hn].
  rewrite taproot0_slot, (proj2 (slot0_ok p n s u)) by auto. cbn [bind fst snd].
  assert (Ek : kind0 (s, u) = Some Tr) by (apply tr_kind; eauto). rewrite Ek.
  destruct (input0_taproot_hash_ty (snd s)) as [t|] eqn:Et; cbn [ok_or bind].
  2: { assert (Hno : forall ty, ~ taproot_type_of_input (snd s) ty) by (intros ty H; apply taproot_ty_iff in H as (t & H & _); congruence).
       split; [intros H; injection H as <-; now apply TEType|]. intros [H|ty s' H|ty H]; [reflexivity|exfalso; eapply Hno; eassumption..]. }
  assert (Hty : taproot_type_of_input (snd s) (tap_num t)) by (apply taproot_ty_iff; eauto).
  assert (Huniq : forall ty, taproot_type_of_input (snd s) ty -> ty = tap_num t).
  { intros ty H. apply taproot_ty_iff in H as (t' & H & <-). congruence. }
  destruct (spend_utxos_spec p (input_indices0 p) Hb) as (us & Eus & HF). rewrite Eus. cbn [bind].
  pose proof (F2_len _ _ _ HF) as Hlen. rewrite indices0_length in Hlen.
  assert (Hnone : forall a, nth_error us a = Some None <-> exists s', nth_error (spends p) a = Some s' /\ no_utxo s').
  { intros a. split.
    - intros Ha. assert (Hal : (a < length us)%nat) by (apply nth_error_Some; congruence).
      assert (Hi : nth_error (input_indices0 p) a = Some (N.of_nat a)).
      { rewrite indices0_nth. now replace (a <? length (p0_inputs p))%nat with true by (symmetry; apply Nat.ltb_lt; lia). }
      pose proof (F2_get _ _ _ HF _ _ _ Hi Ha) as [e' He].
      destruct (nth_error (spends p) a) as [s'|] eqn:Ea; [|apply nth_error_None in Ea; rewrite spends_length in Ea by assumption; lia].
      exists s'. split; [reflexivity|]. assert (Hsa : spend_at p (N.of_nat a) s') by (unfold spend_at; now rewrite Nnat.Nat2N.id).
      pose proof (spend_utxo_funds p _ _ Hsa) as Hf. rewrite He in Hf. tauto.
    - intros (s' & Ha & Hno). assert (Hsa : spend_at p (N.of_nat a) s') by (unfold spend_at; now rewrite Nnat.Nat2N.id).
      pose proof (spend_at_lt _ _ _ Hsa) as [Hal _]. unfold blen in Hal.
      assert (Hi : nth_error (input_indices0 p) a = Some (N.of_nat a)).
      { rewrite indices0_nth. now replace (a <? length (p0_inputs p))%nat with true by (symmetry; apply Nat.ltb_lt; lia). }
      destruct (nth_error us a) as [[v|]|] eqn:Eo; [|reflexivity|apply nth_error_None in Eo; lia].
      exfalso. pose proof (F2_get _ _ _ HF _ _ _ Hi Eo) as Hv. cbn in Hv. apply (spend_utxo_ok p _ _ _ Hsa) in Hv.
      destruct Hno as [H1 H2]. destruct Hv as [Hv|(_ & t' & Hv & _)]; congruence. }
  assert (Hn0 : forall v, nth_error us (N.to_nat n) = Some v -> v = Some u).
  { intros v Hv. assert (Hi : nth_error (input_indices0 p) (N.to_nat n) = Some n).
    { unfold blen in Hlt. rewrite indices0_nth. replace (N.to_nat n <? length (p0_inputs p))%nat with true by (symmetry; apply Nat.ltb_lt; lia). f_equal. lia. }
    pose proof (F2_get _ _ _ HF _ _ _ Hi Hv) as Hf. apply (spend_utxo_ok p n s u Hs) in Hu. destruct v as [w|]; cbn in Hf; [congruence|]. destruct Hf; congruence. }
  assert (Hsin : forall q : bool, q = true -> forall e', 
     (m <- ok_or (if q && (negb ((tap_num t =? 3) || (tap_num t =? 131)) || (n <? blen (tx_output (p0_unsigned_tx p))))
                 then Some (@nil byte) else None) S0TaprootError ;; Ok (m, tap_num t)) = Err e' ->
     e' = S0TaprootError /\ In (tap_num t) [3; 131] /\ blen (tx_output (p0_unsigned_tx p)) <= n) by
   (intros q -> e' H; cbn [andb] in H;
    destruct (tap_num t =? 3) eqn:E3; destruct (tap_num t =? 131) eqn:E4; destruct (n <? blen (tx_output (p0_unsigned_tx p))) eqn:E5;
    cbn [orb negb ok_or bind] in H; try discriminate; injection H as <-; (split; [reflexivity|split; [cbn; lia|lia]])).
  unfold taproot_prev. destruct (128 <=? tap_num t) eqn:Ea.
  - destruct (nth_error us (N.to_nat n)) as [v|] eqn:Ev; [|apply nth_error_None in Ev; unfold blen in Hlt; lia].
    rewrite (Hn0 v eq_refl). cbn [expect ok_or bind]. unfold taproot_signature_hash. rewrite Ea, N.eqb_refl.
    replace (n <? blen (tx_input (p0_unsigned_tx p))) with true by lia. cbn [andb]. split.
    + intros H. specialize (Hsin true eq_refl e). cbn [andb] in Hsin.
      destruct (negb _ || _); [discriminate|]. destruct (Hsin H) as (-> & H1 & H2). apply TESingle with (tap_num t); auto.
      intros H3. exfalso. cbn in H3. lia.
    + intros [H|ty s' H H1|ty H H1 H2 _]; [exfalso; eapply H; eassumption| |]; apply Huniq in H as ->.
      * exfalso. cbn in H1. lia.
      * replace (n <? blen (tx_output (p0_unsigned_tx p))) with false by lia.
        replace ((tap_num t =? 3) || (tap_num t =? 131)) with true by (cbn in H1; lia). reflexivity.
  - assert (Hlow : In (tap_num t) [0; 1; 2; 3]) by (destruct t; cbn in *; try discriminate; auto 8).
    destruct (forall_some_or us) as [Hall|Hex].
    + rewrite Hall. cbn [bind]. unfold taproot_signature_hash.
      assert (Hb' : blen (somes us) =? blen (tx_input (p0_unsigned_tx p)) = true).
      { pose proof (somes_all us Hall) as Hm. apply (f_equal (@length _)) in Hm. rewrite map_length in Hm. unfold one_map_per_input, blen in *. lia. }
      rewrite Hb'. cbn [andb].
      assert (Hno : forall s', In s' (spends p) -> ~ no_utxo s').
      { intros s' Hin Hno. apply In_nth_error in Hin as [a Ha]. assert (Hx : nth_error us a = Some None) by (apply Hnone; eauto).
        apply nth_error_In in Hx. rewrite forallb_forall in Hall. now specialize (Hall _ Hx). }
      split.
      * intros H. specialize (Hsin true eq_refl e). cbn [andb] in Hsin.
        destruct (negb _ || _); [discriminate|]. destruct (Hsin H) as (-> & H1 & H2). apply TESingle with (tap_num t); auto.
      * intros [H|ty s' H H1 H2 H3|ty H H1 H2 _]; [exfalso; eapply H; eassumption|exfalso; eapply Hno; eassumption|]; apply Huniq in H as ->.
        replace (n <? blen (tx_output (p0_unsigned_tx p))) with false by lia.
        replace ((tap_num t =? 3) || (tap_num t =? 131)) with true by (cbn in H1; lia). reflexivity.
    + assert (Hf : forallb is_some us = false).
      { destruct (forallb is_some us) eqn:E; [|reflexivity]. rewrite forallb_forall in E. now specialize (E _ Hex). }
      rewrite Hf. cbn [bind]. apply In_nth_error in Hex as [a Hx]. apply Hnone in Hx as (s' & Hs' & Hno). apply nth_error_In in Hs'. split.
      * intros H. injection H as <-. apply TEUtxo with (tap_num t) s'; auto.
      * intros [H|ty s'' H H1 H2 H3|ty H H1 H2 H3]; [exfalso; eapply H; eassumption|reflexivity|]. apply Huniq in H as ->. exfalso. exact (H3 Hlow s' Hs' Hno).
Qed.

Lemma outcome0_error p n s e : vouts_in_bounds p -> one_map_per_input p -> spend_at p n s -> sorted_origins (snd s) ->
  (outcome0 k p n = Err e <-> sign_error0 k p n s e).
Proof.
  intros Hb Hone Hs Hso. pose proof (in_bounds_at p n s Hb Hs) as Hbs. pose proof (spend_at_lt _ _ _ Hs) as [_ Hn].
  assert (Hnot : spends_ecdsa s \/ spends_taproot s -> forall e, sign_error0 k p n s e ->
     (exists sks, spends_ecdsa s /\ keys_for k (i0_bip32_derivation (snd s)) sks /\ sks <> [] /\ ecdsa_error s e)
     \/ (exists leaf x sk, spends_taproot s /\ wanted k (snd s) leaf x sk /\ taproot_error p n s e)).
  { assert (Hkind : spends_ecdsa s \/ spends_taproot s -> exists u o, funds0 s u /\ spends_kind s o).
    { intros [(o & (u & Hu & Ho) & _)|(u & key & Hu & Hk)]; [exists u, o; split; [auto|exists u; auto]|]. exists u, Tr. split; [auto|]. exists u. split; [auto|now apply OKTr with key]. }
    intros Hsp e' [H|u H Hno|sks e0 H1 H2 H3 H4|leaf x sk e0 H1 H2 H3].
    - destruct (Hkind Hsp) as (u & _ & Hu & _). exfalso. destruct H as [H1 H2]. destruct Hu as [Hu|(_ & t & Hu & _)]; congruence.
    - destruct (Hkind Hsp) as (_ & o & _ & Ho). exfalso. eapply Hno; eassumption.
    - left. eauto.
    - right. eauto 6. }
  destruct (kinds_dec p n s Hs) as [He|[Ht|[He Ht]]].
  - rewrite (outcome0_ecdsa p n s Hs Hbs He). split.
    + destruct (psbt0_sighash_ecdsa p n (p0_unsigned_tx p)) as [[m ty]|e'|] eqn:Em; try discriminate.
      destruct (found k (i0_bip32_derivation (snd s))) as [|a l] eqn:Ef; cbn [is_empty]; [discriminate|].
      intros H. injection H as ->. apply (sighash0_error p n s Hs He) in Em. apply E0Ecdsa with (a :: l); [exact He|now apply found_iff|discriminate|exact Em].
    + intros H. apply Hnot in H as [(sks & _ & Hk & Hne & H)|(leaf & x & sk & Ht & _)]; [|exfalso; eapply ecdsa_not_taproot; eassumption|auto].
      apply found_iff in Hk. apply (sighash0_error p n s Hs He) in H. rewrite H, Hk. destruct sks; [congruence|reflexivity].
  - rewrite (outcome0_taproot p n s Hs Ht). destruct (origins_pre _ Hso) as [Hnd Hget].
    pose proof (schnorr_loop_spec k (psbt0_sighash_taproot p n (p0_unsigned_tx p)) _ (snd s) [] Hnd Hget) as Hl. split.
    + intros H. destruct (schnorr_loop _ _ _ _ _) as [[i' used]|e'|]; cbn [bind] in H; try discriminate. injection H as ->.
      destruct Hl as (leaf & x & sk & Hw & Hm). apply wanted_in_all in Hw. apply (taproot0_error p n s leaf e Hb Hone Hs Ht) in Hm.
      now apply E0Taproot with leaf x sk.
    + intros H. apply Hnot in H as [(sks & He & _)|(leaf & x & sk & _ & Hw & H)]; [exfalso; eapply ecdsa_not_taproot; eassumption| |auto].
      apply wanted_in_all in Hw.
      destruct (schnorr_loop _ _ _ _ _) as [[i' used]|e'|]; cbn [bind].
      * exfalso. destruct Hl as [Hl _]. destruct (si_all _ _ _ _ _ Hl _ _ _ Hw) as (m & ty & Hm).
        apply (taproot0_error p n s leaf e Hb Hone Hs Ht) in H. congruence.
      * destruct Hl as (leaf' & x' & sk' & Hw' & Hm). apply (taproot0_error p n s leaf' e Hb Hone Hs Ht) in H. congruence.
      * exfalso. destruct Hl as (leaf' & x' & sk' & Hw' & Hm). apply taproot0_panic in Hm as (a & s' & Hs' & Ho). exact (in_bounds_at p a s' Hb Hs' Ho).
  - destruct (outcome0_other p n s Hs Hbs He Ht) as (e' & -> & Ha). rewrite algorithm0_slot in Ha.
    destruct (slot0 p n) as [[s' u]|e0|] eqn:Esl; cbn [bind] in Ha; [| |discriminate].
    + pose proof Esl as Esl'. apply slot0_ok in Esl' as [Hs' Hu]. rewrite (spend_at_fun p n s' s Hs' Hs) in *.
      destruct (kind0 (s, u)) as [o|] eqn:Ek; [discriminate|]. injection Ha as <-.
      assert (Hno : forall o, ~ spends_kind s o).
      { intros o (v & Hv & Ho). rewrite (funds0_fun s v u Hv Hu) in Ho. apply kind0_iff in Ho. congruence. }
      split.
      * intros H. injection H as <-. now apply E0Kind with u.
      * intros [H|v H _|sks e0 H1|leaf x sk e0 H1]; [|reflexivity|contradiction|contradiction].
        exfalso. destruct H as [H1 H2]. destruct Hu as [Hu|(_ & t & Hu & _)]; congruence.
    + injection Ha as ->. pose proof (slot0_spec p n) as Hsp. rewrite Esl in Hsp.
      destruct e'; try contradiction.
      * exfalso. destruct Hsp as [Hsp _]. exact (Hsp s Hs).
      * destruct Hsp as (s' & Hs' & Hno). rewrite (spend_at_fun p n s' s Hs' Hs) in Hno. split.
        -- intros H. injection H as <-. now apply E0Utxo.
        -- intros [H|v H _|sks e0 H1|leaf x sk e0 H1]; [reflexivity| |contradiction|contradiction].
           exfalso. destruct Hno as [H1 H2]. destruct H as [Hu|(_ & t & Hu & _)]; congruence.
Qed.

(** ** Panics *)

Lemma sign_leaves_panic msg sk x l : forall sigs, sign_leaves msg sk x l sigs = Panic -> exists leaf, msg leaf = Panic.
Proof.
  induction l as [|a l IH]; intros sigs; cbn [sign_leaves]; [discriminate|].
  destruct (msg (Some a)) as [[m ty]|e|] eqn:E; cbn [bind]; [apply IH|discriminate|eauto].
Qed.
Lemma schnorr_loop_panic msg l : forall i used, schnorr_loop k msg l i used = Panic -> exists leaf, msg leaf = Panic.
Proof.
  induction l as [|[x [lhs src]] l IH]; intros i used; cbn [schnorr_loop]; [discriminate|].
  destruct (k (KRBip32 src)) as [e|[sk|]]; [apply IH| |apply IH].
  destruct (sign_key_path msg sk x lhs i used) as [[i1 used1]|e|] eqn:Ek; cbn [bind]; [|discriminate|].
  - destruct (sign_script_path msg sk x i1 used1) as [[i2 used2]|e|] eqn:Es; cbn [bind]; [apply IH|discriminate|].
    intros _. unfold sign_script_path in Es. destruct (m_get bkey x _) as [[a b]|]; [|discriminate]. cbv zeta in Es.
    destruct (is_empty _); [discriminate|]. destruct (sign_leaves _ _ _ _ _) eqn:El in Es; try discriminate. eapply sign_leaves_panic; eassumption.
  - intros _. unfold sign_key_path in Ek. destruct (i0_tap_internal_key i); [|discriminate]. destruct (_ && _); [|discriminate].
    destruct (msg None) as [[m ty]|e|] eqn:E; try discriminate. eauto.
Qed.
Lemma outcome0_panic p n : outcome0 k p n = Panic -> exists a s, spend_at p a s /\ vout_out_of_bounds s.
Proof.
  unfold outcome0. destruct (psbt0_signing_algorithm p n) as [[|]|e|] eqn:Ea.
  - rewrite algorithm0_slot in Ea. destruct (slot0 p n) as [[s u]|e|] eqn:Es; try discriminate. apply slot0_ok in Es as [Hs Hu].
    pose proof (spend_at_lt _ _ _ Hs) as [_ Hn]. destruct s as [t i]. pose proof Hs as Hs'. apply spend_at_iff in Hs' as [_ Hi]. rewrite Hi. cbn [expect bind].
    destruct (psbt0_sighash_ecdsa p n (p0_unsigned_tx p)) as [[m ty]|e|] eqn:Em.
    + rewrite sign_loop_ok. discriminate.
    + rewrite sign_loop_err. destruct (is_empty _); discriminate.
    + intros _. apply sighash0_panic in Em as (s' & H & Ho); eauto.
  - rewrite algorithm0_slot in Ea. destruct (slot0 p n) as [[[t i] u]|e|] eqn:Es; try discriminate. apply slot0_ok in Es as [Hs Hu].
    rewrite (checked0_at p n t i Hs). cbn [map_err bind].
    destruct (schnorr_loop _ _ _ _ _) as [[i' used]|e|] eqn:El; try discriminate. intros _.
    apply schnorr_loop_panic in El as (leaf & El). eapply taproot0_panic; eassumption.
  - discriminate.
  - intros _. apply algorithm0_panic in Ea as (s & H & Ho). eauto.
Qed.
Lemma sign0_panic_iff p : psbt0_sign k p = Panic <-> Exists vout_out_of_bounds (spends p).
Proof.
  pose proof (sign0_spec k p) as H. rewrite Exists_exists. split.
  - intros E. rewrite E in H. destruct H as (n & _ & Hp). apply outcome0_panic in Hp as (a & s & Hs & Ho). exists s. split; [|exact Ho]. apply spend_at_in. eauto.
  - intros (s & Hin & Ho). apply spend_at_in in Hin as (n & Hs).
    destruct (psbt0_sign k p) as [[[p' used] errs]|e|]; [|contradiction|reflexivity]. exfalso.
    destruct H as (_ & H & _). apply (H n); [now apply spend_at_lt in Hs|]. unfold outcome0.
    rewrite (proj2 (algorithm0_panic p n)) by eauto. reflexivity.
Qed.
Lemma in_bounds_iff p : vouts_in_bounds p <-> ~ Exists vout_out_of_bounds (spends p).
Proof. unfold vouts_in_bounds. split; [intros H E; apply Exists_exists in E as (s & Hin & Ho); rewrite Forall_forall in H; exact (H s Hin Ho)|intros H; now apply Forall_Exists_neg]. Qed.
Lemma sign0_ok p : vouts_in_bounds p -> exists p' used errs, psbt0_sign k p = Ok (p', used, errs).
Proof.
  intros H. apply in_bounds_iff in H. pose proof (sign0_panic_iff p) as Hp. pose proof (sign0_spec k p) as Hs.
  destruct (psbt0_sign k p) as [[[p' used] errs]|e|]; [eauto|contradiction|tauto].
Qed.
Lemma sign0_bounds p r : psbt0_sign k p = Ok r -> vouts_in_bounds p.
Proof. intros H. apply in_bounds_iff. intros E. apply sign0_panic_iff in E. congruence. Qed.

(** ** The lists of keys and errors *)

Lemma used0_in p n ks : In (n, ks) (flat_map (used_at k p) (input_indices0 p)) <->
  n < blen (p0_inputs p) /\ exists i', outcome0 k p n = Ok (i', ks).
Proof.
  rewrite in_flat_map. split.
  - intros (a & Ha & H). apply indices0_in in Ha. unfold used_at in H. destruct (outcome0 k p a) as [[i' ks']|e|] eqn:E; try contradiction.
    destruct H as [[= -> ->]|[]]. eauto.
  - intros (Hn & i' & E). exists n. split; [now apply indices0_in|]. unfold used_at. rewrite E. now left.
Qed.
Lemma errs0_in p n e : In (n, e) (flat_map (errs_at k p) (input_indices0 p)) <->
  n < blen (p0_inputs p) /\ outcome0 k p n = Err e.
Proof.
  rewrite in_flat_map. split.
  - intros (a & Ha & H). apply indices0_in in Ha. unfold errs_at in H. destruct (outcome0 k p a) as [[i' ks']|e'|] eqn:E; try contradiction.
    destruct H as [[= -> ->]|[]]. eauto.
  - intros (Hn & E). exists n. split; [now apply indices0_in|]. unfold errs_at. rewrite E. now left.
Qed.
Lemma indices0_sorted p : StronglySorted N.lt (input_indices0 p).
Proof.
  unfold input_indices0. generalize 0%nat as a. induction (length (p0_inputs p)) as [|l IH]; intros a; cbn [seq map]; constructor; [apply IH|].
  apply Forall_forall. intros x Hx. apply in_map_iff in Hx as (b & <- & Hb). apply in_seq in Hb. lia.
Qed.
Lemma flat_sorted {A} (f : N -> list (N * A)) l : (forall n, f n = [] \/ exists a, f n = [(n, a)]) ->
  StronglySorted N.lt l -> StronglySorted N.lt (map fst (flat_map f l)).
Proof.
  intros Hf H. induction H as [|n l Hl IH Hall]; cbn [flat_map]; [constructor|]. destruct (Hf n) as [->|(a & ->)]; cbn [app map]; [exact IH|].
  constructor; [exact IH|]. apply Forall_forall. intros x Hx. apply in_map_iff in Hx as ([y b] & <- & Hy). apply in_flat_map in Hy as (z & Hz & Hy).
  rewrite Forall_forall in Hall. destruct (Hf z) as [E|(c & E)]; rewrite E in Hy; [destruct Hy|]. destruct Hy as [[= <- _]|[]]. now apply Hall.
Qed.
Lemma used0_sorted p : StronglySorted N.lt (map fst (flat_map (used_at k p) (input_indices0 p))).
Proof. apply flat_sorted; [|apply indices0_sorted]. intros n. unfold used_at. destruct (outcome0 k p n) as [[i' ks]|e|]; eauto. Qed.
Lemma errs0_sorted p : StronglySorted N.lt (map fst (flat_map (errs_at k p) (input_indices0 p))).
Proof. apply flat_sorted; [|apply indices0_sorted]. intros n. unfold errs_at. destruct (outcome0 k p n) as [[i' ks]|e|]; eauto. Qed.

(** ** Well-formedness *)

Lemma map_forall {K V} (sk : K -> list N) (P : K -> Prop) (Q : V -> Prop) m : m_sorted sk m ->
  (forall a b, sk a = sk b -> a = b) -> (forall a v, m_get sk a m = Some v -> P a /\ Q v) -> map_of sk P Q m.
Proof.
  intros Hs Hinj H. split; [exact Hs|]. apply Forall_forall. intros [a v] Hin. apply H. now apply (m_in_get sk).
Qed.
Lemma sign_leaves_sorted msg sk x l : forall sigs sigs', m_sorted sk_xleaf sigs -> sign_leaves msg sk x l sigs = Ok sigs' -> m_sorted sk_xleaf sigs'.
Proof.
  induction l as [|a l IH]; intros sigs sigs' Hs H; cbn [sign_leaves] in H; [inj H; exact Hs|].
  apply bind_ok in H as ([m ty] & _ & H). apply IH in H; [exact H|]. exact (m_put_sorted sk_xleaf sk_xleaf_inj _ _ _ Hs).
Qed.
Lemma schnorr_loop_sorted msg l : forall i used i' used', m_sorted sk_xleaf (i0_tap_script_sigs i) ->
  schnorr_loop k msg l i used = Ok (i', used') -> m_sorted sk_xleaf (i0_tap_script_sigs i').
Proof.
  induction l as [|[x o] l IH]; intros i used i' used' Hs H; [cbn [schnorr_loop] in H; inj H; now injection H as <- <-|].
  rewrite loop_step in H. apply bind_ok in H as ([i2 used2] & Hst & H). apply IH in H; [exact H|].
  unfold step in Hst. destruct (k (KRBip32 (snd o))) as [e|[sk|]]; [inj Hst; now injection Hst as <- <-| |inj Hst; now injection Hst as <- <-].
  apply bind_ok in Hst as ([i1 used1] & Hk & Hst).
  assert (H1 : i0_tap_script_sigs i1 = i0_tap_script_sigs i).
  { unfold sign_key_path in Hk. destruct (i0_tap_internal_key i); [|inj Hk; now injection Hk as <- <-].
    destruct (_ && _); [|inj Hk; now injection Hk as <- <-]. apply bind_ok in Hk as ([m ty] & _ & Hk). inj Hk. injection Hk as <- <-. now destruct i. }
  unfold sign_script_path in Hst. destruct (m_get bkey x _) as [[a b]|]; [|inj Hst; injection Hst as <- <-; now rewrite H1].
  cbv zeta in Hst. destruct (is_empty _); [inj Hst; injection Hst as <- <-; now rewrite H1|].
  apply bind_ok in Hst as (sigs & Hl & Hst). inj Hst. injection Hst as <- <-. apply sign_leaves_sorted in Hl; [|now rewrite H1]. now destruct i1.
Qed.
Lemma tap_std ty : tap_sighash_std ty = true <-> In ty [0; 1; 2; 3; 129; 130; 131].
Proof.
  split; [|intros H; cbn in H; repeat destruct H as [<-|H]; try reflexivity; destruct H].
  unfold tap_sighash_std. cbn [In]. intros H. repeat (apply orb_prop in H as [H|H]); lia.
Qed.
Lemma wanted_wf i leaf x sk : wf_input0 i -> wanted k i leaf x sk -> wf_xonly x /\ forall lh, leaf = Some lh -> wf_xleaf (x, lh).
Proof.
  intros Hw H. pose proof (wi0_tap_key_origins _ Hw) as [_ Hf]. rewrite Forall_forall in Hf.
  destruct H as [x src sk H1 H2 H3 H4|x lhs src sk lh H1 H2 H3 H4]; apply Hf in H1 as [Hx Ho]; cbn [fst snd] in *; (split; [exact Hx|]); intros l' E; [discriminate|].
  inj E. split; [exact Hx|]. destruct Ho as [Ho _]. rewrite Forall_forall in Ho. now apply Ho in H2.
Qed.

Lemma outcome0_wf (L : SignLaws X S) (LT : SchnorrLaws S T) p n s i' ks : vouts_in_bounds p -> spend_at p n s -> wf_input0 (snd s) ->
  outcome0 k p n = Ok (i', ks) -> wf_input0 i'.
Proof.
  intros Hb Hs Hw H. pose proof (in_bounds_at p n s Hb Hs) as Hbs. pose proof (spend_at_lt _ _ _ Hs) as [_ Hn].
  destruct (kinds_dec p n s Hs) as [He|[Ht|[He Ht]]].
  - rewrite (outcome0_ecdsa p n s Hs Hbs He) in H. destruct (psbt0_sighash_ecdsa p n (p0_unsigned_tx p)) as [[m ty]|e|] eqn:Em; try discriminate.
    + inj H. injection H as <- <-. apply sighash0_iff in Em; [|exact Hn]. destruct Em as (s' & u & _ & _ & [Hty _] & _).
      generalize (found k (i0_bip32_derivation (snd s))) as sks. intros sks.
      assert (W : map_of sk_pubkey wf_pubkey wf_esig (add_sigs m ty (i0_partial_sigs (snd s)) sks)).
      { destruct (wi0_partial_sigs _ Hw) as [Hso Hf]. split; [now apply add_sigs_sorted|]. clear Hso.
        revert Hf. generalize (i0_partial_sigs (snd s)) as sigs. induction sks as [|sk sks IH]; intros sigs Hf; [exact Hf|]. cbn [add_sigs fold_left].
        apply IH. apply m_put_forall; [exact Hf|]. cbn [fst snd]. split; [apply secret_pubkey_wf|]. split; [apply sign_ecdsa_der|].
        cbn [es_type]. repeat destruct Hty as [<-|Hty]; try reflexivity. destruct Hty. }
      revert W. generalize (add_sigs m ty (i0_partial_sigs (snd s)) sks) as l. clear -Hw. intros l W. destruct Hw. destruct (snd s). constructor; assumption.
    + destruct (is_empty _); [|discriminate]. inj H. now injection H as <- <-.
  - assert (Hso : sorted_origins (snd s)) by apply (wi0_tap_key_origins _ Hw).
    pose proof (outcome0_result p n s Hb Hs Hso) as Hr. rewrite H in Hr.
    rewrite (outcome0_taproot p n s Hs Ht) in H. apply bind_ok in H as ([j used] & Hl & H). inj H. injection H as <- <-.
    assert (Hsort : m_sorted sk_xleaf (i0_tap_script_sigs j)) by (eapply schnorr_loop_sorted; [|exact Hl]; apply (wi0_tap_script_sigs _ Hw)).
    inversion Hr as [| | |j' xs _ _ Hsig _| |]; subst. rewrite (ts_rest _ _ _ _ _ Hsig).
    pose proof (ts_key _ _ _ _ _ Hsig) as Hk. pose proof (ts_leaf _ _ _ _ _ Hsig) as Hlf.
    assert (Hty : forall leaf m ty, taproot_to_sign p n leaf m ty -> tap_sighash_std ty = true).
    { intros leaf m ty (s' & u & _ & _ & _ & [Hty _] & _). now apply tap_std. }
    assert (W1 : opt_of wf_tsig (i0_tap_key_sig j)).
    { destruct (i0_tap_key_sig j) as [g|]; [|exact I]. destruct (proj1 (Hk g) eq_refl) as [Hg|(x & sk & m & ty & _ & Hm & ->)].
      - pose proof (wi0_tap_key_sig _ Hw) as Hwk. now rewrite Hg in Hwk.
      - split; [apply sign_schnorr_len|]. now apply Hty in Hm. }
    assert (W2 : map_of sk_xleaf wf_xleaf wf_tsig (i0_tap_script_sigs j)).
    { apply map_forall; [exact Hsort|exact sk_xleaf_inj|]. intros [x lh] g Hg. apply Hlf in Hg as [Hg|(sk & m & ty & Hwant & Hm & ->)].
      - apply m_get_in in Hg; [|exact sk_xleaf_inj]. pose proof (wi0_tap_script_sigs _ Hw) as [_ Hf]. rewrite Forall_forall in Hf. now apply Hf in Hg.
      - split; [now apply (wanted_wf (snd s) (Some lh) x sk)|]. split; [apply sign_schnorr_len|]. now apply Hty in Hm. }
    clear -Hw W1 W2. destruct Hw. destruct (snd s). constructor; assumption.
  - destruct (outcome0_other p n s Hs Hbs He Ht) as (e & E & _). congruence.
Qed.
Lemma sign0_wf (L : SignLaws X S) (LT : SchnorrLaws S T) p p' used errs : psbt0_sign k p = Ok (p', used, errs) -> wf_psbt0 p -> wf_psbt0 p'.
Proof.
  intros H Hw. pose proof (sign0_bounds p _ H) as Hb. pose proof (sign0_spec k p) as Hs. rewrite H in Hs. destruct Hs as (Hsame & _ & Hn & _).
  assert (Hin : Forall wf_input0 (p0_inputs p')).
  { apply Forall_forall. intros i Hi. apply In_nth_error in Hi as [a Ha].
    assert (Hlt : (a < length (p0_inputs p'))%nat) by (apply nth_error_Some; congruence). rewrite (same_signed0_len _ _ Hsame) in Hlt.
    assert (Ha' : N.of_nat a < blen (p0_inputs p)) by (unfold blen; lia).
    pose proof (wp0_input_count _ Hw) as Hc.
    destruct (spend_at_ex p (N.of_nat a) Ha') as [s Hsp]; [unfold blen; lia|].
    pose proof Hsp as Hsp'. destruct s as [t j]. apply spend_at_iff in Hsp' as [_ Hj]. rewrite Nnat.Nat2N.id in Hj.
    assert (Hwj : wf_input0 j) by (pose proof (wp0_inputs _ Hw) as Hf; rewrite Forall_forall in Hf; apply Hf; eapply nth_error_In; eassumption).
    specialize (Hn _ Ha'). rewrite Nnat.Nat2N.id, Ha, Hj in Hn. destruct (outcome0 k p (N.of_nat a)) as [[i' ks]|e|] eqn:Eo; inj Hn; [|exact Hwj|exact Hwj].
    exact (outcome0_wf L LT p _ (t, j) i' ks Hb Hsp Hwj Eo). }
  pose proof (same_signed0_len _ _ Hsame) as Hl. pose proof (sb0_rest _ _ Hsame) as Hr.
  revert Hin Hl Hr. destruct Hw. generalize (p0_inputs p') as l. intros l Hin Hl ->. clear -Hin Hl wp0_tx wp0_unsigned wp0_tx_size wp0_version wp0_xpub wp0_props wp0_unknown wp0_size wp0_outputs wp0_input_count wp0_output_count.
  destruct p. constructor; cbn in *; try assumption. congruence.
Qed.

(** ** Signing again *)

Lemma slot0_related p q n : same_but_signed0 p q ->
  match slot0 p n, slot0 q n with
  | Ok (s, u), Ok (s', u') => u' = u /\ same_but_sigs0 (snd s) (snd s')
  | Err e, Err e' => e' = e
  | Panic, Panic => True
  | _, _ => False
  end.
Proof.
  intros H. pose proof (spend_utxo_same p q n H) as Hu. unfold slot0. rewrite Hu, (same_signed0_tx _ _ H).
  destruct (spend_at_dec p n) as [[[t i] Hs]|Hno].
  - rewrite (checked0_at p n t i Hs). apply spend_at_iff in Hs as [Ht Hi].
    destruct (nth_error (p0_inputs q) (N.to_nat n)) as [j|] eqn:Ej.
    2: { apply nth_error_None in Ej. rewrite (same_signed0_len _ _ H) in Ej. apply nth_error_None in Ej. congruence. }
    rewrite (checked0_at q n t j) by (apply spend_at_iff; now rewrite (same_signed0_tx _ _ H)).
    cbn [map_err bind]. destruct (spend_utxo p n) as [u| |]; cbn [bind]; auto. rewrite nth_N_nth, Ht. cbn [expect bind snd].
    split; [reflexivity|]. exact (F2_get _ _ _ (sb0_inputs _ _ H) _ _ _ Hi Ej).
  - destruct (no_spend p n Hno) as (e & Hc & _). rewrite Hc.
    assert (Hq : checked_input0 q n = Err e).
    { rewrite checked0_cases in Hc |- *. unfold blen in *. rewrite (same_signed0_tx _ _ H), (same_signed0_len _ _ H).
      destruct (N.of_nat (length (p0_inputs p)) <=? n); [assumption|]. destruct (N.of_nat _ <=? n); [assumption|].
      destruct (nth_error (p0_inputs p) (N.to_nat n)); discriminate. }
    rewrite Hq. reflexivity.
Qed.
Lemma digests0_related p q n t : same_but_signed0 p q ->
  psbt0_signing_algorithm q n = psbt0_signing_algorithm p n
  /\ psbt0_sighash_ecdsa q n t = psbt0_sighash_ecdsa p n t
  /\ forall leaf, psbt0_sighash_taproot q n t leaf = psbt0_sighash_taproot p n t leaf.
Proof.
  intros H. pose proof (slot0_related p q n H) as Hs. rewrite !algorithm0_slot, !sighash0_slot.
  assert (Hu : spend_utxos q (input_indices0 q) = spend_utxos p (input_indices0 p)).
  { unfold input_indices0. now rewrite (same_signed0_len _ _ H), (spend_utxos_same p q _ H). }
  destruct (slot0 p n) as [[s u]|e|] eqn:Ep; destruct (slot0 q n) as [[s' u']|e'|] eqn:Eq; try contradiction; cbn [bind fst snd].
  - destruct Hs as [-> Hsame]. pose proof (same_sigs0_fields _ _ Hsame) as (_ & _ & Hr & Hws & Hty & _).
    assert (Hk : kind0 (s', u) = kind0 (s, u)) by (unfold kind0; cbn [fst snd]; now rewrite Hr). rewrite Hk.
    assert (Hety : input0_ecdsa_hash_ty (snd s') = input0_ecdsa_hash_ty (snd s)) by (unfold input0_ecdsa_hash_ty; now rewrite Hty).
    split; [reflexivity|]. split; [now rewrite Hety, Hr, Hws|]. intros leaf. rewrite !taproot0_slot, Ep, Eq. cbn [bind fst snd]. rewrite Hk, Hu.
    unfold input0_taproot_hash_ty. now rewrite Hty.
  - subst e'. split; [reflexivity|]. split; [reflexivity|]. intros leaf. now rewrite !taproot0_slot, Ep, Eq.
  - split; [reflexivity|]. split; [reflexivity|]. intros leaf. now rewrite !taproot0_slot, Ep, Eq.
Qed.
Lemma nothing_wanted i l used msg : NoDup (map fst l) -> (forall x o, In (x, o) l -> m_get bkey x (i0_tap_key_origins i) = Some o) ->
  (forall leaf x sk, ~ wanted_in k i l leaf x sk) -> schnorr_loop k msg l i used = Ok (i, used).
Proof.
  intros Hnd Hget Hno. revert Hnd Hget Hno. induction l as [|[x [lhs src]] l IH]; intros Hnd Hget Hno; [reflexivity|].
  cbn [map fst] in Hnd. apply NoDup_cons_iff in Hnd as [Hn Hnd].
  assert (IH' : schnorr_loop k msg l i used = Ok (i, used)).
  { apply IH; [exact Hnd|intros; apply Hget; now right|]. intros leaf y sk Hw. apply (Hno leaf y sk). apply wanted_in_cons; [exact Hn|].
    right. split; [|exact Hw]. intros ->. now apply wanted_in_fst in Hw. }
  cbn [schnorr_loop]. destruct (k (KRBip32 src)) as [e|[sk|]] eqn:Ek; [exact IH'| |exact IH'].
  assert (H1 : sign_key_path msg sk x lhs i used = Ok (i, used)).
  { unfold sign_key_path. destruct (i0_tap_internal_key i) as [y|] eqn:Ey; [|reflexivity].
    destruct (bytes_eqb y x) eqn:Eb; [apply bytes_eqb_eq in Eb as ->|reflexivity]. destruct lhs as [|]; [|reflexivity].
    destruct (i0_tap_key_sig i) eqn:Eg; [reflexivity|]. exfalso. apply (Hno None x sk). eapply WIKey; eauto. now left. }
  rewrite H1. cbn [bind]. unfold sign_script_path. rewrite (Hget x (lhs, src) (or_introl eq_refl)). cbv zeta.
  destruct (filter _ lhs) as [|lh r] eqn:Ef; cbn [is_empty bind]; [exact IH'|].
  exfalso. assert (Hin : In lh (lh :: r)) by now left. rewrite <- Ef in Hin. apply filter_In in Hin as [Hin Hm].
  apply (Hno (Some lh) x sk). eapply WILeaf; eauto; [now left|]. unfold m_mem in Hm. destruct (m_get sk_xleaf (x, lh) _); [discriminate Hm|reflexivity].
Qed.

Definition sorted_sigs0 (i : input0) : Prop := m_sorted sk_pubkey (i0_partial_sigs i).
(** What the keys become when signing again: taproot keys are not used twice. *)
Definition again (ks : signkeys) : signkeys := match ks with KeysEcdsa l => KeysEcdsa l | KeysSchnorr _ => KeysSchnorr [] end.

Lemma sign0_nth p p' used errs n : psbt0_sign k p = Ok (p', used, errs) -> n < blen (p0_inputs p) ->
  nth_error (p0_inputs p') (N.to_nat n) = match outcome0 k p n with Ok (i', _) => Some i' | _ => nth_error (p0_inputs p) (N.to_nat n) end.
Proof. intros H Hn. pose proof (sign0_spec k p) as Hs. rewrite H in Hs. destruct Hs as (_ & _ & Hs & _). now apply Hs. Qed.
Lemma sign0_same p p' used errs : psbt0_sign k p = Ok (p', used, errs) -> same_but_signed0 p p'.
Proof. intros H. pose proof (sign0_spec k p) as Hs. rewrite H in Hs. apply Hs. Qed.

Lemma outcome0_again p p' used errs n s : psbt0_sign k p = Ok (p', used, errs) -> spend_at p n s ->
  sorted_sigs0 (snd s) -> sorted_origins (snd s) ->
  outcome0 k p' n = match outcome0 k p n with Ok (i', ks) => Ok (i', again ks) | r => r end.
Proof.
  intros H Hs Hss Hso. pose proof (sign0_same _ _ _ _ H) as Hsame. pose proof (sign0_bounds p _ H) as Hb.
  pose proof (spend_at_lt _ _ _ Hs) as [Hn Hn']. pose proof (sign0_nth _ _ _ _ n H Hn) as Hnth.
  destruct (digests0_related p p' n (p0_unsigned_tx p) Hsame) as (Ha & He & Ht). pose proof (same_signed0_tx _ _ Hsame) as Htx.
  pose proof (in_bounds_at p n s Hb Hs) as Hbs.
  assert (Hunch : forall e, outcome0 k p n = Err e -> outcome0 k p' n = Err e).
  { intros e Ee. rewrite Ee in Hnth. rewrite <- Ee. unfold outcome0. rewrite Htx, Ha, He, Hnth, (checked0_same p p' n Hsame Hnth).
    destruct (psbt0_signing_algorithm p n) as [[|]|e'|]; try reflexivity. destruct (checked_input0 p n) as [i|e'|]; cbn [map_err bind]; try reflexivity.
    now rewrite (schnorr_loop_ext k _ _ (i0_tap_key_origins i) Ht). }
  destruct (outcome0 k p n) as [[i' ks]|e|] eqn:Eo; [|now apply Hunch|exfalso; apply outcome0_panic in Eo as (a & s' & Hs' & Ho); exact (in_bounds_at p a s' Hb Hs' Ho)].
  assert (Hs' : spend_at p' n (fst s, i')).
  { destruct s as [t i]. apply spend_at_iff in Hs as [Hst _]. apply spend_at_iff. rewrite Htx. auto. }
  assert (Hk : spends_ecdsa (fst s, i') <-> spends_ecdsa s) by (rewrite <- (spends_ecdsa_iff p' n _ Hs'), <- (spends_ecdsa_iff p n s Hs), Ha; reflexivity).
  assert (Hk' : spends_taproot (fst s, i') <-> spends_taproot s) by (rewrite <- (spends_taproot_iff p' n _ Hs'), <- (spends_taproot_iff p n s Hs), Ha; reflexivity).
  assert (Hb' : ~ vout_out_of_bounds (fst s, i')).
  { destruct (outcome0_same k p n i' ks Eo) as (i & Hi & Hsi). destruct s as [t j]. pose proof Hs as Hsx. apply spend_at_iff in Hsx as [_ Hj].
    replace i with j in Hsi by congruence. apply same_sigs0_fields in Hsi as (Hw & Hnw & _). unfold vout_out_of_bounds in *. cbn [fst snd] in *. now rewrite Hw, Hnw. }
  destruct (kinds_dec p n s Hs) as [Hec|[Htr|[Hec Htr]]].
  - rewrite (outcome0_ecdsa p' n _ Hs' Hb' (proj2 Hk Hec)), Htx, He. rewrite (outcome0_ecdsa p n s Hs Hbs Hec) in Eo.
    destruct (psbt0_sighash_ecdsa p n (p0_unsigned_tx p)) as [[m ty]|e|]; [| |discriminate].
    + inj Eo. injection Eo as <- <-. cbn [again snd].
      assert (E1 : forall l i, i0_bip32_derivation (set_i0_partial_sigs l i) = i0_bip32_derivation i) by (intros l i; now destruct i).
      assert (E2 : forall l i, i0_partial_sigs (set_i0_partial_sigs l i) = l) by (intros l i; now destruct i).
      rewrite E1, E2, add_sigs_twice by exact Hss. destruct (snd s); reflexivity.
    + destruct (is_empty _) eqn:Ee in Eo; [|discriminate]. inj Eo. injection Eo as <- <-. cbn [snd]. rewrite Ee. reflexivity.
  - rewrite (outcome0_taproot p' n _ Hs' (proj2 Hk' Htr)), Htx. cbn [snd].
    pose proof (outcome0_result p n s Hb Hs Hso) as Hr. rewrite Eo in Hr. inversion Hr as [| | |j' xs _ Hall Hsig _| |]; subst.
    { exfalso. eapply ecdsa_not_taproot; eassumption. } { exfalso. eapply ecdsa_not_taproot; eassumption. }
    destruct (set_taps_idem _ _ (snd s) i' (ts_rest _ _ _ _ _ Hsig)) as (Hor & Hint & _).
    rewrite (nothing_wanted i' (i0_tap_key_origins i') []); [reflexivity| | |].
    + rewrite Hor. now apply origins_pre.
    + rewrite Hor. now apply origins_pre.
    + intros leaf x sk Hw. inversion Hw as [y src sk' H1 H2 H3 H4|y lhs src sk' lh H1 H2 H3 H4]; subst.
      * rewrite Hor in H1. rewrite Hint in H2.
        destruct (i0_tap_key_sig (snd s)) as [g|] eqn:Eg; [rewrite (proj2 (ts_key _ _ _ _ _ Hsig g)) in H3 by auto; discriminate|].
        assert (Hwant : wanted k (snd s) None x sk) by (eapply WantKey; eassumption).
        destruct (Hall _ _ _ Hwant) as (m & ty & Hm).
        rewrite (proj2 (ts_key _ _ _ _ _ Hsig (TSig (sign_schnorr m (tweak_secret (pv_secret sk) (i0_tap_merkle_root (snd s)))) ty))) in H3; [discriminate|].
        right. exists x, sk, m, ty. auto.
      * rewrite Hor in H1.
        destruct (m_get sk_xleaf (x, lh) (i0_tap_script_sigs (snd s))) as [g|] eqn:Eg; [rewrite (proj2 (ts_leaf _ _ _ _ _ Hsig x lh g)) in H3 by auto; discriminate|].
        assert (Hwant : wanted k (snd s) (Some lh) x sk) by (eapply WantLeaf; eassumption).
        destruct (Hall _ _ _ Hwant) as (m & ty & Hm).
        rewrite (proj2 (ts_leaf _ _ _ _ _ Hsig x lh (TSig (sign_schnorr m (pv_secret sk)) ty))) in H3; [discriminate|].
        right. exists sk, m, ty. auto.
  - exfalso. destruct (outcome0_other p n s Hs Hbs Hec Htr) as (e & E & _). congruence.
Qed.
Lemma psbt0_inputs_eq p q l : q = set_p0_inputs l p -> l = p0_inputs p -> q = p.
Proof. intros -> ->. now destruct p. Qed.
Lemma sign0_again p p' used errs : psbt0_sign k p = Ok (p', used, errs) -> one_map_per_input p ->
  Forall (fun i => sorted_sigs0 i /\ sorted_origins i) (p0_inputs p) ->
  psbt0_sign k p' = Ok (p', map (fun x => (fst x, again (snd x))) used, errs).
Proof.
  intros H Hone Hall. pose proof (sign0_same _ _ _ _ H) as Hsame. pose proof (same_signed0_len _ _ Hsame) as Hlen.
  assert (Hout : forall n, n < blen (p0_inputs p) -> outcome0 k p' n = match outcome0 k p n with Ok (i', ks) => Ok (i', again ks) | r => r end).
  { intros n Hn. destruct (spend_at_ex p n Hn) as [s Hs]; [unfold blen, one_map_per_input in *; lia|].
    destruct s as [t i]. pose proof Hs as Hs'. apply spend_at_iff in Hs' as [_ Hi]. apply nth_error_In in Hi. rewrite Forall_forall in Hall.
    destruct (Hall i Hi) as [H1 H2]. exact (outcome0_again p p' used errs n (t, i) H Hs H1 H2). }
  assert (Hidx : input_indices0 p' = input_indices0 p) by (unfold input_indices0; now rewrite Hlen).
  pose proof (sign0_spec k p) as Hs1. rewrite H in Hs1. destruct Hs1 as (_ & Hnp & _ & Hu & He).
  pose proof (sign0_spec k p') as Hs2. destruct (psbt0_sign k p') as [[[q used'] errs']|e|]; [|contradiction|].
  - destruct Hs2 as (Hsq & _ & Hnq & -> & ->). rewrite Hidx.
    assert (Eq : q = p').
    { apply (psbt0_inputs_eq p' q (p0_inputs q)); [exact (sb0_rest _ _ Hsq)|]. apply nth_ext_N. intros n.
      destruct (N.ltb_spec n (blen (p0_inputs p))) as [Hn|Hn].
      - rewrite Hnq by (unfold blen in *; lia). rewrite (Hout n Hn), (sign0_nth _ _ _ _ n H Hn). destruct (outcome0 k p n) as [[i' ks]|e|]; reflexivity.
      - rewrite !(proj2 (nth_error_None _ _)); [reflexivity|unfold blen in *; lia|rewrite (same_signed0_len _ _ Hsq); unfold blen in *; lia]. }
    subst q. do 2 f_equal; [f_equal|].
    + rewrite Hu. assert (G : forall l, (forall n, In n l -> n < blen (p0_inputs p)) ->
         flat_map (used_at k p') l = map (fun x => (fst x, again (snd x))) (flat_map (used_at k p) l)).
      { induction l as [|n l IH]; intros Hl; [reflexivity|]. cbn [flat_map]. rewrite map_app, <- IH by (intros; apply Hl; now right). f_equal.
        unfold used_at. rewrite (Hout n) by (apply Hl; now left). destruct (outcome0 k p n) as [[i' ks]|e|]; reflexivity. }
      apply G. intros n. apply indices0_in.
    + rewrite He. assert (G : forall l, (forall n, In n l -> n < blen (p0_inputs p)) -> flat_map (errs_at k p') l = flat_map (errs_at k p) l).
      { induction l as [|n l IH]; intros Hl; [reflexivity|]. cbn [flat_map]. rewrite <- IH by (intros; apply Hl; now right). f_equal.
        unfold errs_at. rewrite (Hout n) by (apply Hl; now left). destruct (outcome0 k p n) as [[i' ks]|e|]; reflexivity. }
      apply G. intros n. apply indices0_in.
  - destruct Hs2 as (n & Hn & Hp). exfalso. assert (Hn' : n < blen (p0_inputs p)) by (unfold blen in *; lia).
    rewrite (Hout n Hn') in Hp. apply (Hnp n Hn'). destruct (outcome0 k p n) as [[i' ks]|e|]; congruence.
Qed.
End Result.
