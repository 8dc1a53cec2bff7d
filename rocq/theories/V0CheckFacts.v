(** Facts about the signer checks of a v0 PSBT. *)
From Verif Require Import Base OMap Consensus Ext SerializeFacts SpecCodec Serialize MapCodec Script V2Roles V2Sign SpecSign V2SignFacts
  V0Input V0Psbt SpecExtract0 V0ExtractFacts V0Sign SpecSign0 V0SignFacts.
Local Open Scope N_scope.

Lemma kind_unknown s r : kind_of s r = None <->
  (exists v g, program s v g) /\ forall h, ~ p2wpkh_hash s h /\ ~ p2wsh_hash s h /\ ~ p2tr_key s h.
Proof.
  unfold kind_of. split.
  - destruct (is_witness_program s) eqn:Ew; cbn [orb negb].
    + apply is_witness_program_iff in Ew as (v & g & Hg).
      destruct (is_p2wpkh _) eqn:E1; [discriminate|]. destruct (is_p2wsh _) eqn:E2; [discriminate|].
      destruct (is_p2sh _) eqn:E3. { apply is_p2sh_iff in E3. now apply (p2sh_not_program _ v g) in E3. }
      destruct (is_p2tr _) eqn:E4; [discriminate|]. intros _. split; [eauto|].
      apply is_p2wpkh_false in E1. apply is_p2wsh_false in E2. apply is_p2tr_false in E4. intros h. repeat split; intros H; eauto.
    + destruct (is_p2sh s) eqn:E3; cbn [negb]; [|discriminate].
      destruct (is_p2wpkh _); [discriminate|]. destruct (is_p2wsh _); [discriminate|].
      destruct r as [r|]; [|discriminate]. destruct (is_p2wpkh r); [discriminate|]. destruct (is_p2wsh r); discriminate.
  - intros ((v & g & Hg) & Hn). rewrite (proj2 (is_witness_program_iff _)) by eauto. cbn [orb negb].
    rewrite (proj2 (is_p2wpkh_false _)) by (intros [h H]; destruct (Hn h) as (N1 & N2 & N3); contradiction).
    rewrite (proj2 (is_p2wsh_false _)) by (intros [h H]; destruct (Hn h) as (N1 & N2 & N3); contradiction).
    rewrite (proj2 (is_p2sh_false _)) by (intros H; now apply (p2sh_not_program _ v g) in H).
    now rewrite (proj2 (is_p2tr_false _)) by (intros [h H]; destruct (Hn h) as (N1 & N2 & N3); contradiction).
Qed.

Section Checks.
Context `{X : Ext}.

Definition check1 (p : psbt0) (n : N) (i : input0) : res checkserr unit :=
  _ <- check_witness_utxo p n i ;; _ <- check_non_witness_utxo p n i ;; _ <- check_redeem_script i ;; check_witness_script i.
Lemma checks_cons p n i l : signer_checks_loop p n (i :: l) = _ <- check1 p n i ;; signer_checks_loop p (n + 1) l.
Proof.
  unfold check1. cbn [signer_checks_loop].
  destruct (check_witness_utxo p n i) as [[]| |]; cbn [bind]; auto.
  destruct (check_non_witness_utxo p n i) as [[]| |]; cbn [bind]; auto.
  destruct (check_redeem_script i) as [[]| |]; cbn [bind]; auto.
Qed.
Lemma p2wsh_script_eq w : script_to_p2wsh w = [x00; x20] ++ sha256 w.
Proof. reflexivity. Qed.

Lemma check_witness_utxo_spec p n s : spend_at p n s ->
  match check_witness_utxo p n (snd s) with
  | Ok _ => i0_witness_utxo (snd s) <> None -> ~ spends_kind s Bare
  | Err e => e = SCNonWitnessSig /\ i0_witness_utxo (snd s) <> None /\ spends_kind s Bare
  | Panic => False
  end.
Proof.
  intros Hs. unfold check_witness_utxo. destruct (i0_witness_utxo (snd s)) as [u|] eqn:Eu; [|congruence].
  assert (Hu : funds0 s u) by now left. rewrite output_type0_slot, (proj2 (slot0_ok p n s u)) by auto. cbn [bind].
  destruct (kind0 (s, u)) as [o|] eqn:Ek; cbn [ok_or].
  - apply kind0_iff in Ek. assert (Hk : spends_kind s o) by (exists u; auto).
    assert (Huniq : spends_kind s Bare -> o = Bare).
    { intros (v & Hv & Ho). rewrite (funds0_fun s v u Hv Hu) in Ho. eapply kind_unique; eassumption. }
    destruct o; try (intros _ H; apply Huniq in H; discriminate). split; [reflexivity|]. split; [discriminate|exact Hk].
  - intros _ (v & Hv & Ho). rewrite (funds0_fun s v u Hv Hu) in Ho. apply kind0_iff in Ho. congruence.
Qed.
Lemma check_non_witness_spec p n s : spend_at p n s ->
  match check_non_witness_utxo p n (snd s) with
  | Ok _ => txid_matches s
  | Err e => e = SCNonWitnessUtxoTxidMismatch /\ exists t, i0_non_witness_utxo (snd s) = Some t /\ sha256d (enc_tx_nowit t) <> ti_txid (fst s)
  | Panic => False
  end.
Proof.
  intros Hs. destruct s as [ti i]. apply spend_at_iff in Hs as [Ht _]. unfold check_non_witness_utxo, txid_matches. cbn [fst snd].
  destruct (i0_non_witness_utxo i) as [t|]; [|discriminate]. rewrite nth_N_nth, Ht. cbn [expect bind].
  change (compute_txid t) with (sha256d (enc_tx_nowit t)).
  destruct (bytes_eqb (sha256d (enc_tx_nowit t)) (ti_txid ti)) eqn:E; cbn [negb fail_if].
  - intros t' H. inj H. now apply bytes_eqb_eq.
  - split; [reflexivity|]. exists t. split; [reflexivity|]. now apply bytes_eqb_neq.
Qed.
Lemma check_redeem_spec (s : txin * input0) :
  match check_redeem_script (snd s) with
  | Ok _ => forall r, i0_redeem_script (snd s) = Some r -> exists u, i0_witness_utxo (snd s) = Some u /\ to_script u = p2sh_script (hash160 r)
  | Err SCMissingTxOut => i0_witness_utxo (snd s) = None /\ i0_redeem_script (snd s) <> None
  | Err SCRedeemScriptMismatch => exists u r, i0_witness_utxo (snd s) = Some u /\ i0_redeem_script (snd s) = Some r /\ to_script u <> p2sh_script (hash160 r)
  | Err _ => False
  | Panic => False
  end.
Proof.
  unfold check_redeem_script. destruct (i0_redeem_script (snd s)) as [r|]; [|discriminate].
  destruct (i0_witness_utxo (snd s)) as [u|]; [|split; [reflexivity|discriminate]].
  change (script_to_p2sh r) with (p2sh_script (hash160 r)). destruct (bytes_eqb (to_script u) (p2sh_script (hash160 r))) eqn:E; cbn [negb fail_if].
  - intros r' H. inj H. exists u. split; [reflexivity|]. now apply bytes_eqb_eq.
  - exists u, r. split; [reflexivity|]. split; [reflexivity|]. now apply bytes_eqb_neq.
Qed.
Lemma check_witness_spec (s : txin * input0) :
  match check_witness_script (snd s) with
  | Ok _ => forall w, i0_witness_script (snd s) = Some w ->
      exists u, i0_witness_utxo (snd s) = Some u /\ (forall h, p2wsh_hash (to_script u) h -> h = sha256 w) /\ (p2sh (to_script u) -> i0_redeem_script (snd s) = None)
  | Err SCMissingTxOut => i0_witness_utxo (snd s) = None /\ i0_witness_script (snd s) <> None
  | Err SCWitnessScriptMismatchWsh => exists u h w, i0_witness_utxo (snd s) = Some u /\ p2wsh_hash (to_script u) h /\ i0_witness_script (snd s) = Some w /\ h <> sha256 w
  | Err SCWitnessScriptMismatchShWsh => exists u r w, i0_witness_utxo (snd s) = Some u /\ p2sh (to_script u) /\ i0_redeem_script (snd s) = Some r /\ i0_witness_script (snd s) = Some w
  | Err _ => False
  | Panic => False
  end.
Proof.
  unfold check_witness_script. destruct (i0_witness_script (snd s)) as [w|]; [|discriminate].
  destruct (i0_witness_utxo (snd s)) as [u|]; [|split; [reflexivity|discriminate]]. cbv zeta.
  destruct (is_p2wsh (to_script u)) eqn:Ew; [|destruct (is_p2sh (to_script u)) eqn:Es].
  - apply is_p2wsh_iff in Ew as (h & Hw).
    assert (Hsh : forall h', p2wsh_hash (to_script u) h' -> script_to_p2wsh w = to_script u <-> h' = sha256 w).
    { intros h' [(-> & _) Hl]. rewrite p2wsh_script_eq. unfold program_script, blen. rewrite Hl. cbn. split; [now intros [=]|now intros ->]. }
    assert (Hn : ~ p2sh (to_script u)). { destruct Hw as [(Hh & _) _]. rewrite Hh. intros (g & Hg & E). unfold program_script, p2sh_script in E. discriminate. }
    destruct (bytes_eqb (script_to_p2wsh w) (to_script u)) eqn:E; cbn [negb fail_if].
    + apply bytes_eqb_eq in E. intros w' H. inj H. exists u. split; [reflexivity|]. split; [|contradiction].
      intros h' Hw'. now apply (Hsh h').
    + apply bytes_eqb_neq in E. exists u, h, w. split; [reflexivity|]. split; [assumption|]. split; [reflexivity|]. intros Hc. apply E. now apply (Hsh h).
  - apply is_p2sh_iff in Es. assert (Hne : forall r, script_to_p2wsh r <> to_script u).
    { intros r E. destruct Es as (g & Hg & Eg). rewrite Eg, p2wsh_script_eq in E. discriminate. }
    destruct (i0_redeem_script (snd s)) as [r|].
    + rewrite (proj2 (bytes_eqb_neq _ _) (Hne r)). cbn [negb fail_if]. exists u, r, w. auto.
    + intros w' H. inj H. exists u. split; [reflexivity|]. split; [|auto]. intros h [(Hh & _) _]. rewrite Hh in Es. destruct Es as (g & Hg & E). discriminate.
  - intros w' H. inj H. exists u. split; [reflexivity|]. split.
    + intros h Hh. assert (is_p2wsh (to_script u) = true) by (apply is_p2wsh_iff; eauto). congruence.
    + intros Hc. apply is_p2sh_iff in Hc. congruence.
Qed.
Lemma not_bare s u : i0_witness_utxo (snd s) = Some u -> p2sh (to_script u) \/ (exists h, p2wsh_hash (to_script u) h) -> ~ spends_kind s Bare.
Proof.
  intros Hu H (v & Hv & Ho). assert (Hu' : funds0 s u) by now left. rewrite (funds0_fun s v u Hv Hu') in Ho. inversion Ho as [H1 H2| | | | | |].
  destruct H as [H|(h & Hp & Hl)]; [contradiction|]. exact (H2 0 h Hp).
Qed.
Lemma p2sh_of_script (h : bytes) : length h = 20%nat -> p2sh (p2sh_script h).
Proof. intros. now exists h. Qed.

Lemma check1_spec (L : ExtLaws X) p n s : spend_at p n s ->
  match check1 p n (snd s) with
  | Ok _ => checked s
  | Err e => check_error s e
  | Panic => False
  end.
Proof.
  intros Hs. unfold check1.
  pose proof (check_witness_utxo_spec p n s Hs) as H1. destruct (check_witness_utxo p n (snd s)) as [[]|e|]; cbn [bind]; [| |contradiction].
  2:{ destruct H1 as (-> & H1 & H2). now constructor. }
  pose proof (check_non_witness_spec p n s Hs) as H2. destruct (check_non_witness_utxo p n (snd s)) as [[]|e|]; cbn [bind]; [| |contradiction].
  2:{ destruct H2 as (-> & t & H2 & H3). econstructor; eassumption. }
  pose proof (check_redeem_spec s) as H3. destruct (check_redeem_script (snd s)) as [[]|e|]; cbn [bind]; [| |contradiction].
  2:{ destruct e; try contradiction.
      - destruct H3 as (u & r & H3 & H4 & H5). apply (CERedeem s u r); auto. apply H1. congruence.
      - destruct H3 as (H3 & H4). apply CENoTxOut; auto. }
  pose proof (check_witness_spec s) as H4. destruct (check_witness_script (snd s)) as [[]|e|]; [| |contradiction].
  - now constructor.
  - destruct e; try contradiction.
    + destruct H4 as (H4 & H5). apply CENoTxOut; auto.
    + destruct H4 as (u & h & w & H4 & H5 & H6 & H7). apply (CEWsh s u h w); auto.
      destruct (i0_redeem_script (snd s)) as [r|] eqn:Er; [exfalso|reflexivity]. destruct (H3 r eq_refl) as (u' & Hu' & Hr).
      rewrite H4 in Hu'. inj Hu'. destruct H5 as [(H5 & _) _]. rewrite H5 in Hr. discriminate.
    + destruct H4 as (u & r & w & H4 & H5 & H6 & H7). apply (CEShWsh s u r w); auto.
      destruct (H3 r H6) as (u' & Hu' & Hr). rewrite H4 in Hu'. now inj Hu'.
Qed.
Lemma check_error_not_checked (L : ExtLaws X) s e : check_error s e -> ~ checked s.
Proof.
  intros H K. destruct K as [K1 K2 K3 K4]. inversion H as [E1 E2|t E1 E2 E3|E1 E2 E3|u r E1 E2 E3 E4 E5|u h w E1 E2 E3 E4 E5 E6|u r w E1 E2 E3 E4 E5].
  - exact (K1 E1 E2).
  - exact (E3 (K2 t E2)).
  - destruct E3 as [E3|E3].
    + destruct (i0_redeem_script (snd s)) as [r|]; [|congruence]. destruct (K3 r eq_refl) as (u & Hu & _). congruence.
    + destruct (i0_witness_script (snd s)) as [w|]; [|congruence]. destruct (K4 w eq_refl) as (u & Hu & _). congruence.
  - destruct (K3 r E4) as (v & Hv & Hr). rewrite E3 in Hv. inj Hv. contradiction.
  - destruct (K4 w E5) as (v & Hv & Hh & _). rewrite E2 in Hv. inj Hv. apply E6. now apply Hh.
  - destruct (K4 w E5) as (v & Hv & _ & Hr). rewrite E2 in Hv. inj Hv. rewrite E3 in Hr. enough (Some r = None) by discriminate. apply Hr.
    rewrite E4. apply p2sh_of_script. apply (ripemd160_len (ExtLaws := L)).
Qed.

Lemma check_error_fun (L : ExtLaws X) s e e' : check_error s e -> check_error s e' -> e = e'.
Proof.
  assert (Hsh : forall u r, i0_witness_utxo (snd s) = Some u -> to_script u = p2sh_script (hash160 r) -> ~ spends_kind s Bare).
  { intros u r Hu E. apply (not_bare s u Hu). left. rewrite E. apply p2sh_of_script, (ripemd160_len (ExtLaws := L)). }
  assert (Hwsh : forall u h, i0_witness_utxo (snd s) = Some u -> p2wsh_hash (to_script u) h -> ~ spends_kind s Bare).
  { intros u h Hu E. apply (not_bare s u Hu). right. eauto. }
  intros H H'. inversion H as [E1 E2|t E1 E2 E3|E1 E2 E3|u r E1 E2 E3 E4 E5|u h w E1 E2 E3 E4 E5 E6|u r w E1 E2 E3 E4 E5];
  inversion H' as [F1 F2|t' F1 F2 F3|F1 F2 F3|u' r' F1 F2 F3 F4 F5|u' h' w' F1 F2 F3 F4 F5 F6|u' r' w' F1 F2 F3 F4 F5];
  try reflexivity; exfalso; try congruence; try contradiction; try tauto.
  all: try (eapply Hwsh; eassumption); try (eapply Hsh; eassumption).
  all: try (now apply E3, (F2 t)); try (now apply E3, (F1 t)); try (now apply F3, (E2 t')); try (now apply F3, (E1 t')).
Qed.

(** ** The loop *)
Lemma spends_skip p n s l : spends p = n ++ s :: l -> spend_at p (blen n) s.
Proof. intros E. unfold spend_at. rewrite E. unfold blen. rewrite Nat2N.id. rewrite nth_error_app2 by lia. now rewrite Nat.sub_diag. Qed.
Lemma checks_loop_spec (L : ExtLaws X) p l : forall pre, spends p = pre ++ l ->
  match signer_checks_loop p (blen pre) (map snd l) with
  | Ok _ => Forall checked l
  | Err e => exists l1 s l2, l = l1 ++ s :: l2 /\ Forall checked l1 /\ check_error s e
  | Panic => False
  end.
Proof.
  induction l as [|s l IH]; intros pre E.
  - constructor.
  - cbn [map]. rewrite checks_cons. pose proof (check1_spec L p (blen pre) s (spends_skip p pre s l E)) as H.
    destruct (check1 p (blen pre) (snd s)) as [[]|e|]; cbn [bind]; [| |contradiction].
    + specialize (IH (pre ++ [s])). rewrite <- app_assoc in IH. specialize (IH E).
      replace (blen (pre ++ [s])) with (blen pre + 1) in IH by (unfold blen; rewrite app_length; cbn [length]; lia).
      destruct (signer_checks_loop p (blen pre + 1) (map snd l)) as [[]|e|]; auto.
      destruct IH as (l1 & s' & l2 & -> & H1 & H2). exists (s :: l1), s', l2. split; [reflexivity|]. split; auto.
    + exists [], s, l. auto.
Qed.
Lemma map_snd_combine {A B} (l : list A) (m : list B) : length l = length m -> map snd (combine l m) = m.
Proof. revert m. induction l as [|a l IH]; intros [|b m] H; cbn in *; try lia; [reflexivity|]. f_equal. apply IH. lia. Qed.
Lemma checks_spec (L : ExtLaws X) p : one_map_per_input p ->
  match signer_checks p with
  | Ok _ => Forall checked (spends p)
  | Err e => exists l1 s l2, spends p = l1 ++ s :: l2 /\ Forall checked l1 /\ check_error s e
  | Panic => False
  end.
Proof.
  intros H. pose proof (checks_loop_spec L p (spends p) [] eq_refl) as K. unfold spends in K at 1. rewrite map_snd_combine in K; [exact K|].
  unfold one_map_per_input in H. unfold blen in H. lia.
Qed.

Lemma first_unique {A} (P Q : A -> Prop) l1 a l2 l1' a' l2' : l1 ++ a :: l2 = l1' ++ a' :: l2' -> (forall x, Q x -> ~ P x) ->
  Forall P l1 -> Forall P l1' -> Q a -> Q a' -> a = a'.
Proof.
  intros E Hpq. revert l1' E. induction l1 as [|b l1 IH]; intros [|b' l1'] E H1 H1' Ha Ha'; cbn [app] in E; injection E as E1 E2.
  - exact E1.
  - subst. apply Forall_inv in H1'. destruct (Hpq _ Ha H1').
  - subst. apply Forall_inv in H1. destruct (Hpq _ Ha' H1).
  - apply Forall_inv_tail in H1, H1'. eauto.
Qed.
Lemma checks_ok_iff (L : ExtLaws X) p : one_map_per_input p -> (signer_checks p = Ok tt <-> Forall checked (spends p)).
Proof.
  intros Hone. pose proof (checks_spec L p Hone) as H. destruct (signer_checks p) as [[]|e|]; [tauto| |contradiction].
  split; [discriminate|]. intros Hall. destruct H as (l1 & s & l2 & E & _ & He). rewrite E in Hall. apply Forall_app in Hall as [_ Hall].
  apply Forall_inv in Hall. now apply (check_error_not_checked L s e He) in Hall.
Qed.
Lemma checks_err_iff (L : ExtLaws X) p e : one_map_per_input p ->
  (signer_checks p = Err e <-> exists l1 s l2, spends p = l1 ++ s :: l2 /\ Forall checked l1 /\ check_error s e).
Proof.
  intros Hone. pose proof (checks_spec L p Hone) as H. split.
  - intros E. now rewrite E in H.
  - intros (l1 & s & l2 & E & H1 & He). destruct (signer_checks p) as [[]|e'|]; [| |contradiction].
    + rewrite E in H. apply Forall_app in H as [_ H]. apply Forall_inv in H. now apply (check_error_not_checked L s e He) in H.
    + destruct H as (l1' & s' & l2' & E' & H1' & He'). rewrite E in E'.
      assert (s = s').
      { eapply (first_unique checked (fun x => exists e, check_error x e)); [exact E'| |exact H1|exact H1'|eauto|eauto].
        intros x (e0 & H0). exact (check_error_not_checked L x e0 H0). }
      subst s'. now rewrite (check_error_fun L s e e' He He').
Qed.
End Checks.
