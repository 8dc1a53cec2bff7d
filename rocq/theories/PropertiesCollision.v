(** C150, C152 with the collision spelled out.  That some two strings have the same hash is true, as
    there are more strings than hashes; what nobody can do is name them.  So these theorems say
    which strings collide: two that the digests or transaction ids at hand hash. *)
From Verif Require Import Base OMap Consensus ConsensusFacts Ext RealExt RealLaws RealSign RealTaproot ExtInstance Serialize SerializeFacts
  V2Roles V2Sign SpecSign V2SignFacts SampleV2 V0Input V0Output V0Psbt SpecPsbt0 V0WireFacts SpecExtract0 V0ExtractFacts V0Sign SpecSign0 V0SignFacts
  V0CheckFacts DigestFacts SpecCommit SpecCollision PropertiesV0Extract PropertiesV0Sign PropertiesV0Check PropertiesCommit PropertiesCommit3
  V2Global V2Input V2Output V2Psbt SpecPsbt V2WireFacts SpecRoles V2RolesFacts PropertiesV2Roles PropertiesV2Sign SpecCommit2 PropertiesCommit2.
Local Open Scope N_scope.

Lemma once_in a b : real_sha256 a = real_sha256 b -> a = b \/ collide a b.
Proof.
  intros H. destruct (bytes_eqb a b) eqn:E; [left; now apply bytes_eqb_eq|].
  right. split; [|exact H]. intros ->. rewrite bytes_eqb_refl in E. discriminate.
Qed.
Lemma twice_in a b : real_sha256 (real_sha256 a) = real_sha256 (real_sha256 b) -> a = b \/ dsha_collision a b.
Proof. intros H. apply once_in in H as [H|H]; [apply once_in in H as [H|H]; [now left|]|]; right; unfold dsha_collision; auto. Qed.

Lemma segwit_in t n i code value ty t' n' i' code' value' ty' :
  wf_tx t -> wf_tx t' -> ty < 2 ^ 32 -> ty' < 2 ^ 32 -> wf_vec code -> wf_vec code' -> wf_u64 value -> wf_u64 value' ->
  nth_error (tx_input t) (N.to_nat n) = Some i -> nth_error (tx_input t') (N.to_nat n') = Some i' ->
  real_segwit t n code value ty = real_segwit t' n' code' value' ty' ->
  same_place (bip143_strings t n i code value ty) (bip143_strings t' n' i' code' value' ty') \/
  (ty = ty' /\ code = code' /\ value = value' /\ tx_version t = tx_version t' /\ tx_lock_time t = tx_lock_time t'
   /\ ti_txid i = ti_txid i' /\ ti_vout i = ti_vout i' /\ ti_sequence i = ti_sequence i'
   /\ (anyone ty = false ->
         map (fun i => (ti_txid i, ti_vout i)) (tx_input t) = map (fun i => (ti_txid i, ti_vout i)) (tx_input t'))
   /\ (anyone ty = false -> base_type ty <> 2 -> base_type ty <> 3 ->
         map ti_sequence (tx_input t) = map ti_sequence (tx_input t'))
   /\ (base_type ty <> 2 -> base_type ty <> 3 -> tx_output t = tx_output t')
   /\ (base_type ty = 3 -> forall o o', nth_error (tx_output t) (N.to_nat n) = Some o -> nth_error (tx_output t') (N.to_nat n') = Some o' -> o = o')).
Proof.
  intros (Wv & Wl & _ & Wi & _ & Wo) (Wv' & Wl' & _ & Wi' & _ & Wo') Hty Hty' Hc Hc' Hx Hx' Hi Hi' H.
  assert (Qi : wf_txin i) by (apply nth_error_In in Hi; rewrite Forall_forall in Wi; auto).
  assert (Qi' : wf_txin i') by (apply nth_error_In in Hi'; rewrite Forall_forall in Wi'; auto).
  unfold real_segwit in H. cbv zeta in H. rewrite Hi, Hi' in H. apply twice_in in H as [H|H]; [|left; exists 0%nat; eexists _, _; split; [reflexivity|split; [reflexivity|exact H]]].
  apply (le_app_inj 4) in H as [Ev H]; [|exact Wv|exact Wv'].
  apply app_inj_len in H as [Ep H]; [|rewrite !(if_len _ _ _ 32); auto using zeros_len, real_sha256_len].
  apply app_inj_len in H as [Es H]; [|rewrite !(if_len _ _ _ 32); auto using zeros_len, real_sha256_len].
  fold (enc_outpoint i) (enc_outpoint i') in H.
  apply outpoint_inj in H as [Eo H]; auto. injection Eo as Eo1 Eo2.
  apply (rt_inj wf_vec enc_bytes dec_bytes) in H as [-> H]; auto; [|exact dec_bytes_rt].
  apply (le_app_inj 8) in H as [-> H]; [|exact Hx|exact Hx'].
  apply (le_app_inj 4) in H as [Eq H]; [|now destruct Qi as (_ & _ & _ & ? & _)|now destruct Qi' as (_ & _ & _ & ? & _)].
  apply app_inj_len in H as [Eu H]; [|rewrite !(if_len _ _ _ 32); auto using zeros_len, real_sha256_len, if_len].
  apply (le_app_inj 4) in H as [El H]; [|exact Wl|exact Wl'].
  apply (le_enc_inj 4) in H as ->; [|exact Hty|exact Hty'].
  match goal with |- ?k \/ _ => set (K := k) end.
  assert (A : K \/ (anyone ty' = false ->
    map (fun i => (ti_txid i, ti_vout i)) (tx_input t) = map (fun i => (ti_txid i, ti_vout i)) (tx_input t'))).
  { destruct (anyone ty'); [right; discriminate|]. apply twice_in in Ep as [Ep|Ep]; [|left; unfold K; exists 1%nat; eexists _, _; split; [reflexivity|split; [reflexivity|exact Ep]]]. right. intros _. now apply outpoints_inj. }
  assert (B : K \/ (anyone ty' = false -> base_type ty' <> 2 -> base_type ty' <> 3 ->
    map ti_sequence (tx_input t) = map ti_sequence (tx_input t'))).
  { destruct (anyone ty'); [right; discriminate|]. destruct (base_type ty' =? 3) eqn:E3; [right; lia|]. destruct (base_type ty' =? 2) eqn:E2; [right; lia|].
    apply twice_in in Es as [Es|Es]; [|left; unfold K; exists 2%nat; eexists _, _; split; [reflexivity|split; [reflexivity|exact Es]]]. right. intros _ _ _. now apply sequences_inj. }
  assert (D : K \/ ((base_type ty' <> 2 -> base_type ty' <> 3 -> tx_output t = tx_output t') /\
    (base_type ty' = 3 -> forall o o', nth_error (tx_output t) (N.to_nat n) = Some o -> nth_error (tx_output t') (N.to_nat n') = Some o' -> o = o'))).
  { destruct (base_type ty' =? 3) eqn:E3; destruct (base_type ty' =? 2) eqn:E2; cbn [negb andb] in Eu; [lia| |right; split; lia|].
    - assert (F : forall t n (o : txout), nth_error (tx_output t) (N.to_nat n) = Some o ->
        (n <? blen (tx_output t)) = true /\ firstn 1 (skipn (N.to_nat n) (tx_output t)) = [o]).
      { clear. intros t n o E. assert (N.to_nat n < length (tx_output t))%nat by (apply nth_error_Some; congruence).
        split; [unfold blen; lia|]. apply nth_error_split in E as (l1 & l2 & -> & <-). rewrite skipn_app, skipn_all, Nat.sub_diag. reflexivity. }
      destruct (nth_error (tx_output t) (N.to_nat n)) as [o|] eqn:E; [|right; split; [lia|discriminate]].
      destruct (nth_error (tx_output t') (N.to_nat n')) as [o'|] eqn:E'; [|right; split; [lia|discriminate]].
      destruct (F t n o E) as [F1 F2], (F t' n' o' E') as [F1' F2']. rewrite F1, F1', F2, F2' in Eu. cbn [flat_map] in Eu. rewrite !app_nil_r in Eu.
      apply twice_in in Eu as [Eu|Eu]; [|left; unfold K; exists 4%nat, (enc_txout o), (enc_txout o'); cbn [nth_error bip143_strings]; rewrite F2, F2'; cbn [flat_map]; rewrite !app_nil_r; auto]. right. split; [lia|]. intros _ q q' Q Q'. injection Q as <-. injection Q' as <-.
      apply nth_error_In in E. apply nth_error_In in E'. rewrite Forall_forall in Wo, Wo'.
      destruct (rt_inj wf_txout enc_txout dec_txout o o' [] []) as [-> _]; auto.
      + exact dec_txout_rt.
      + now rewrite !app_nil_r.
    - apply twice_in in Eu as [Eu|Eu]; [|left; unfold K; exists 3%nat; eexists _, _; split; [reflexivity|split; [reflexivity|exact Eu]]]. right. split; [|lia]. intros _ _. now apply txouts_inj. }
  destruct A as [A|A]; [now left|]. destruct B as [B|B]; [now left|]. destruct D as [D|[D1 D2]]; [now left|].
  right. do 8 (split; [auto|]). auto.
Qed.

Lemma legacy_in t n i code ty t' n' i' code' ty' :
  wf_tx t -> wf_tx t' -> ty < 2 ^ 32 -> ty' < 2 ^ 32 -> wf_vec code -> wf_vec code' ->
  nth_error (tx_input t) (N.to_nat n) = Some i -> nth_error (tx_input t') (N.to_nat n') = Some i' ->
  (base_type ty = 3 -> n < blen (tx_output t)) -> (base_type ty' = 3 -> n' < blen (tx_output t')) ->
  real_legacy t n code ty = real_legacy t' n' code' ty' ->
  dsha_collision (legacy_string t n code ty) (legacy_string t' n' code' ty') \/
  (ty = ty' /\ tx_version t = tx_version t' /\ tx_lock_time t = tx_lock_time t'
   /\ (anyone ty = false ->
         map (fun i => (ti_txid i, ti_vout i)) (tx_input t) = map (fun i => (ti_txid i, ti_vout i)) (tx_input t'))
   /\ (anyone ty = false -> base_type ty <> 2 -> base_type ty <> 3 ->
         map ti_sequence (tx_input t) = map ti_sequence (tx_input t'))
   /\ (anyone ty = false -> code <> [] -> n = n')
   /\ (anyone ty = true \/ code <> [] -> ti_txid i = ti_txid i' /\ ti_vout i = ti_vout i' /\ ti_sequence i = ti_sequence i' /\ code = code')
   /\ (base_type ty <> 2 -> base_type ty <> 3 -> tx_output t = tx_output t')
   /\ (base_type ty = 3 -> n = n' /\ nth_error (tx_output t) (N.to_nat n) = nth_error (tx_output t') (N.to_nat n'))).
Proof.
  intros W W' Hty Hty' Hc Hc' Hi Hi' H3 H3' H. rewrite !legacy_eq in H by assumption. apply twice_in in H as [H|H]; [|left; exact H].
  destruct (nowit_inj _ _ _ _ (leg_wf _ _ _ _ W Hc H3) (leg_wf _ _ _ _ W' Hc' H3') H) as (Ev & El & Ei & Eo & Et).
  cbn [tx_version tx_lock_time tx_input tx_output] in *. right.
  apply (le_enc_inj 4) in Et as <-; [|exact Hty|exact Hty'].
  assert (Fst : forall A (f : txin -> A) (g : N * txin -> A) l, (forall p, g p = f (snd p)) ->
      map g (combine (map N.of_nat (seq 0 (length l))) l) = map f l).
  { intros A f g l Hg. rewrite (map_ext _ (fun p => f (snd p)) Hg). generalize 0%nat as a. induction l as [|x l IH]; intros a; cbn; [reflexivity|]. f_equal. apply IH. }
  split; [reflexivity|]. split; [exact Ev|]. split; [exact El|].
  assert (A1 : anyone ty = false -> map (fun i => (ti_txid i, ti_vout i)) (tx_input t) = map (fun i => (ti_txid i, ti_vout i)) (tx_input t')).
  { intros A. rewrite !leg_ins_all in Ei by assumption. apply (f_equal (map (fun q : bytes * N * bytes * N => (fst (fst (fst q)), snd (fst (fst q)))))) in Ei.
    rewrite !map_map in Ei. rewrite !(Fst _ (fun i => (ti_txid i, ti_vout i))) in Ei; [exact Ei| |]; intros [k j]; unfold leg_in; cbn [fst snd]; now destruct (k =? _). }
  assert (N1 : anyone ty = false -> code <> [] -> n = n').
  { intros A Nc. rewrite !leg_ins_all in Ei by assumption. apply (f_equal (fun l => nth_error l (N.to_nat n))) in Ei.
    rewrite !nth_error_map, !numbered_nth, Hi in Ei. cbn [option_map] in Ei. destruct (nth_error (tx_input t') (N.to_nat n)) as [j|]; cbn [option_map] in Ei; [|discriminate Ei].
    unfold leg_in in Ei. cbn [fst snd] in Ei. rewrite N2Nat.id, N.eqb_refl in Ei. destruct (n =? n') eqn:E; [lia|]. exfalso.
    apply (f_equal (option_map (fun q : bytes * N * bytes * N => snd (fst q)))) in Ei. cbn in Ei. injection Ei as Ei. congruence. }
  split; [exact A1|]. split; [|split; [exact N1|split; [|split]]].
  - intros A B2 B3. rewrite !leg_ins_all in Ei by assumption. apply (f_equal (map (fun q : bytes * N * bytes * N => snd q))) in Ei.
    rewrite !map_map in Ei. replace (base_type ty =? 2) with false in * by lia. 
    rewrite !(Fst _ ti_sequence) in Ei; [exact Ei| |]; intros [k j]; unfold leg_in; cbn [fst snd];
      (destruct (base_type ty =? 2) eqn:Q2; [lia|]); (destruct (base_type ty =? 3) eqn:Q3; [lia|]); now destruct (k =? _).
  - intros K. destruct (anyone ty) eqn:A.
    + rewrite (leg_ins_one t n i code ty A Hi), (leg_ins_one t' n' i' code' ty A Hi') in Ei. cbn in Ei. unfold in_fields in Ei. cbn in Ei. injection Ei as -> -> -> ->. auto.
    + destruct K as [K|K]; [discriminate K|]. pose proof (N1 eq_refl K) as <-. rewrite !leg_ins_all in Ei by assumption. apply (f_equal (fun l => nth_error l (N.to_nat n))) in Ei.
      rewrite !nth_error_map, !numbered_nth, Hi, Hi' in Ei. cbn [option_map] in Ei. unfold leg_in in Ei. cbn [fst snd] in Ei. rewrite N2Nat.id, N.eqb_refl in Ei.
      unfold in_fields in Ei. cbn in Ei. injection Ei as -> -> -> ->. auto.
  - intros B2 B3. unfold leg_outs in Eo. replace (base_type ty =? 2) with false in Eo by lia. replace (base_type ty =? 3) with false in Eo by lia. exact Eo.
  - intros B3. unfold leg_outs in Eo. rewrite B3 in Eo. cbn in Eo. specialize (H3 B3). specialize (H3' B3).
    assert (F : forall t n, n < blen (tx_output t) -> exists o, nth_error (tx_output t) (N.to_nat n) = Some o /\ firstn 1 (skipn (N.to_nat n) (tx_output t)) = [o]).
    { clear. intros t n E. destruct (nth_error (tx_output t) (N.to_nat n)) as [o|] eqn:Eo; [|apply nth_error_None in Eo; unfold blen in E; lia].
      exists o. split; [reflexivity|]. apply nth_error_split in Eo as (l1 & l2 & -> & <-). rewrite skipn_app, skipn_all, Nat.sub_diag. reflexivity. }
    destruct (F t n H3) as (o & E1 & E2), (F t' n' H3') as (o' & E1' & E2').
    change (repeat (TxOut 18446744073709551615 []) (N.to_nat n) ++ firstn 1 (skipn (N.to_nat n) (tx_output t)) = repeat (TxOut 18446744073709551615 []) (N.to_nat n') ++ firstn 1 (skipn (N.to_nat n') (tx_output t'))) in Eo.
    rewrite E2, E2' in Eo. apply app_inj_tail in Eo as [Er Eo]. apply (f_equal (@length txout)) in Er. rewrite !repeat_length in Er.
    split; [lia|]. congruence.
Qed.

Theorem C150_segwit_explicit : forall (X : Ext) p n s u ty p' n' s' u' ty' m,
  wf_psbt0 p -> wf_psbt0 p' ->
  spend_at p n s -> funds0 s u -> (exists c, script_code s u c) ->
  spend_at p' n' s' -> funds0 s' u' -> (exists c, script_code s' u' c) ->
  @psbt0_sighash_ecdsa real_signer p n (p0_unsigned_tx p) = Ok (m, ty) ->
  @psbt0_sighash_ecdsa real_signer p' n' (p0_unsigned_tx p') = Ok (m, ty') ->
  (exists c c', script_code s u c /\ script_code s' u' c' /\
     same_place (bip143_strings (p0_unsigned_tx p) n (fst s) c (to_value u) ty) (bip143_strings (p0_unsigned_tx p') n' (fst s') c' (to_value u') ty')) \/
  (ty = ty' /\ tx_version (p0_unsigned_tx p) = tx_version (p0_unsigned_tx p')
   /\ tx_lock_time (p0_unsigned_tx p) = tx_lock_time (p0_unsigned_tx p')
   /\ same_input (fst s) (fst s') /\ to_value u = to_value u' /\ (exists c, script_code s u c /\ script_code s' u' c)
   /\ (all_inputs ty -> outpoints p = outpoints p')
   /\ (ty = 0x01 -> sequences p = sequences p')
   /\ (all_outputs ty -> outputs p = outputs p')
   /\ (one_output ty -> forall o o', nth_error (outputs p) (N.to_nat n) = Some o -> nth_error (outputs p') (N.to_nat n') = Some o' -> o = o')).
Proof.
  intros X p n s u ty p' n' s' u' ty' m W W' Hs Hu Hc Hs' Hu' Hc' H H'.
  apply (proj1 (C33_v0_digest X real_signer p n _ m ty (proj2 (spend_at_lt _ _ _ Hs)))) in H.
  apply (proj1 (C33_v0_digest X real_signer p' n' _ m ty' (proj2 (spend_at_lt _ _ _ Hs')))) in H'.
  destruct H as (s1 & u1 & K1 & K2 & [Ty _] & M), H' as (s2 & u2 & K3 & K4 & [Ty' _] & M').
  assert (s1 = s) by (unfold spend_at in *; congruence). assert (s2 = s') by (unfold spend_at in *; congruence). subst s1 s2.
  rewrite (funds0_fun _ _ _ K2 Hu) in M. rewrite (funds0_fun _ _ _ K4 Hu') in M'. clear K1 K2 K3 K4 u1 u2.
  apply commit_message in M as (c & C & ->); auto. apply commit_message in M' as (c' & C' & E); auto.
  destruct (commit_ecdsa_bits ty Ty) as (T1 & BA & BU & BS). destruct (commit_ecdsa_bits ty' Ty') as (T1' & _).
  pose proof (commit_funds p s u W (commit_in _ _ _ Hs) Hu) as [Wv _]. pose proof (commit_funds p' s' u' W' (commit_in _ _ _ Hs') Hu') as [Wv' _].
  destruct (segwit_in _ _ (fst s) _ _ _ _ _ (fst s') _ _ _ (wp0_tx _ W) (wp0_tx _ W') T1 T1' (commit_code _ _ _ _ _ W Hs C) (commit_code _ _ _ _ _ W' Hs' C')
    Wv Wv' (commit_input _ _ _ Hs) (commit_input _ _ _ Hs') E) as [B|(<- & <- & Ev & Et & El & I1 & I2 & I3 & A1 & A2 & O1 & O2)]; [left; exists c, c'; auto|right].
  do 3 (split; [auto|]). split; [now split|]. split; [auto|]. split; [exists c; auto|]. split; [auto|]. split.
  - intros ->. apply A2; [reflexivity| |]; discriminate.
  - split; [intros A; apply BU in A as [Q1 Q2]; exact (O1 Q1 Q2)|intros A; exact (O2 (BS A))].
Qed.
Print Assumptions C150_segwit_explicit.

Theorem C150_legacy_explicit : forall (X : Ext) p n s u c ty p' n' s' u' c' ty' m,
  wf_psbt0 p -> wf_psbt0 p' ->
  spend_at p n s -> funds0 s u -> legacy_code s u c ->
  spend_at p' n' s' -> funds0 s' u' -> legacy_code s' u' c' ->
  (one_output ty -> n < blen (outputs p)) -> (one_output ty' -> n' < blen (outputs p')) ->
  @psbt0_sighash_ecdsa real_signer p n (p0_unsigned_tx p) = Ok (m, ty) ->
  @psbt0_sighash_ecdsa real_signer p' n' (p0_unsigned_tx p') = Ok (m, ty') ->
  dsha_collision (legacy_string (p0_unsigned_tx p) n c ty) (legacy_string (p0_unsigned_tx p') n' c' ty') \/
  (ty = ty' /\ tx_version (p0_unsigned_tx p) = tx_version (p0_unsigned_tx p')
   /\ tx_lock_time (p0_unsigned_tx p) = tx_lock_time (p0_unsigned_tx p')
   /\ (one_input ty \/ c <> [] -> same_input (fst s) (fst s') /\ c = c')
   /\ (all_inputs ty -> outpoints p = outpoints p' /\ (c <> [] -> n = n'))
   /\ (ty = 0x01 -> sequences p = sequences p')
   /\ (all_outputs ty -> outputs p = outputs p')
   /\ (one_output ty -> n = n' /\ nth_error (outputs p) (N.to_nat n) = nth_error (outputs p') (N.to_nat n'))).
Proof.
  intros X p n s u c0 ty p' n' s' u' c0' ty' m W W' Hs Hu Hc Hs' Hu' Hc' HS HS' H H'.
  assert (Fun : forall (s : txin * input0) u c c', legacy_code s u c -> legacy_code s u c' -> c = c').
  { clear. intros s u c c' H H'. destruct H as [K|c K E], H' as [K'|c' K' E']; [reflexivity| | |congruence];
      apply kind0_iff with (s := s) in K, K'; congruence. }
  apply (proj1 (C33_v0_digest X real_signer p n _ m ty (proj2 (spend_at_lt _ _ _ Hs)))) in H.
  apply (proj1 (C33_v0_digest X real_signer p' n' _ m ty' (proj2 (spend_at_lt _ _ _ Hs')))) in H'.
  destruct H as (s1 & u1 & K1 & K2 & [Ty _] & M), H' as (s2 & u2 & K3 & K4 & [Ty' _] & M').
  assert (s1 = s) by (unfold spend_at in *; congruence). assert (s2 = s') by (unfold spend_at in *; congruence). subst s1 s2.
  rewrite (funds0_fun _ _ _ K2 Hu) in M. rewrite (funds0_fun _ _ _ K4 Hu') in M'. clear K1 K2 K3 K4 u1 u2.
  apply commit_legacy_message in M as (c & C & ->); eauto. apply commit_legacy_message in M' as (c' & C' & E); eauto.
  rewrite (Fun _ _ _ _ Hc C), (Fun _ _ _ _ Hc' C'). clear Hc Hc' c0 c0' Fun.
  assert (S3 : forall ty, In ty [0x01; 0x02; 0x03; 0x81; 0x82; 0x83] -> base_type ty = 3 -> one_output ty).
  { clear. intros ty H. unfold one_output. cbn [In] in *. decompose [or] H; subst; try contradiction; cbn; intros; try discriminate; tauto. }
  assert (O1 : one_input ty -> anyone ty = true).
  { clear. unfold one_input. cbn [In]. intros H. decompose [or] H; subst; try contradiction; reflexivity. }
  destruct (commit_ecdsa_bits ty Ty) as (T1 & BA & BU & BS). destruct (commit_ecdsa_bits ty' Ty') as (T1' & _).
  destruct (legacy_in _ _ (fst s) _ _ _ _ (fst s') _ _ (wp0_tx _ W) (wp0_tx _ W') T1 T1' (commit_legacy_code _ _ _ _ _ W Hs Hu C)
    (commit_legacy_code _ _ _ _ _ W' Hs' Hu' C') (commit_input _ _ _ Hs) (commit_input _ _ _ Hs') (fun E => HS (S3 _ Ty E)) (fun E => HS' (S3 _ Ty' E)) E)
    as [B|(<- & Ev & El & A1 & A2 & A3 & I & Q1 & Q2)]; [now left|right].
  do 3 (split; [auto|]). split; [|split; [|split; [|split]]].
  - intros K. destruct I as (I1 & I2 & I3 & I4); [destruct K; auto|]. split; [split; auto|exact I4].
  - intros A. apply BA in A. split; [exact (A1 A)|exact (A3 A)].
  - intros ->. apply A2; [reflexivity| |]; discriminate.
  - intros A. apply BU in A as [Z1 Z2]. exact (Q1 Z1 Z2).
  - intros A. exact (Q2 (BS A)).
Qed.
Print Assumptions C150_legacy_explicit.

Theorem C152_output_explicit : forall p s u p' s' u',
  @wf_psbt0 real_root p -> @wf_psbt0 real_root p' -> @signer_checks real_root p = Ok tt -> @signer_checks real_root p' = Ok tt ->
  In s (spends p) -> In s' (spends p') -> whole s -> whole s' -> funds0 s u -> funds0 s' u' ->
  ti_txid (fst s) = ti_txid (fst s') -> ti_vout (fst s) = ti_vout (fst s') ->
  (exists s s' t t', In s (spends p) /\ In s' (spends p') /\ i0_non_witness_utxo (snd s) = Some t /\ i0_non_witness_utxo (snd s') = Some t'
     /\ dsha_collision (enc_tx_nowit t) (enc_tx_nowit t')) \/ u = u'.
Proof.
  intros p s u p' s' u' W W' K K' Hs Hs' Hw Hw' Hu Hu' E1 E2.
  destruct (C49_sound_partial real_root real_root_laws p s (wp0_input_count _ W) K Hs) as [T _].
  destruct (C49_sound_partial real_root real_root_laws p' s' (wp0_input_count _ W') K' Hs') as [T' _].
  assert (F : forall p s t, @wf_psbt0 real_root p -> In s (spends p) -> i0_non_witness_utxo (snd s) = Some t -> wf_tx t).
  { clear. intros p [i m] t W Hs E. apply in_combine_r in Hs. pose proof (wp0_inputs _ W) as F. rewrite Forall_forall in F.
    apply F in Hs. pose proof (wi0_non_witness_utxo _ Hs) as Q. cbn [snd] in E. rewrite E in Q. apply Q. }
  destruct Hu as [Hu|[_ (t & Et & N)]]; [unfold whole in Hw; congruence|]. destruct Hu' as [Hu|[_ (t' & Et' & N')]]; [unfold whole in Hw'; congruence|].
  pose proof (F p s t W Hs Et) as Wt. pose proof (F p' s' t' W' Hs' Et') as Wt'. clear F.
  specialize (T t Et). specialize (T' t' Et'). rewrite <- E1, <- T in T'. unfold sha256d in T'. symmetry in T'. apply twice_in in T' as [T'|B]; [right|left; exists s, s', t, t'; repeat (split; [assumption|]); exact B].
  assert (Q : enc_tx_nowit t ++ [] = enc_tx_nowit t' ++ []) by now rewrite !app_nil_r.
  apply nowit_inj in Q as (_ & _ & _ & Q & _); auto. congruence.
Qed.
Print Assumptions C152_output_explicit.

Lemma checked_values_explicit p p' : forall l l' vs vs',
  @wf_psbt0 real_root p -> @wf_psbt0 real_root p' -> @signer_checks real_root p = Ok tt -> @signer_checks real_root p' = Ok tt ->
  (forall s, In s l -> In s (spends p) /\ whole s) -> (forall s, In s l' -> In s (spends p') /\ whole s) ->
  map (fun s => (ti_txid (fst s), ti_vout (fst s))) l = map (fun s : txin * input0 => (ti_txid (fst s), ti_vout (fst s))) l' ->
  funded0 l vs -> funded0 l' vs' -> (exists s s' t t', In s (spends p) /\ In s' (spends p') /\ i0_non_witness_utxo (snd s) = Some t /\ i0_non_witness_utxo (snd s') = Some t'
     /\ dsha_collision (enc_tx_nowit t) (enc_tx_nowit t')) \/ vs = vs'.
Proof.
  intros l l' vs vs' W W' K K' I I' E F. revert l' vs' I' E.
  induction F as [|s v l vs (u & Hu & Ev) F IH]; intros [|s' l'] vs' I' E F'; try discriminate E; inversion F' as [|x v' y vs2 (u' & Hu' & Ev') F2]; subst; [now right|].
  cbn [map] in E. injection E as E1 E2 E.
  destruct (IH (fun s H => I s (or_intror H)) l' vs2 (fun s H => I' s (or_intror H)) E F2) as [B| ->]; [now left|].
  destruct (I s (or_introl eq_refl)) as [Hs Hw], (I' s' (or_introl eq_refl)) as [Hs' Hw'].
  destruct (C152_output_explicit p s u p' s' u' W W' K K' Hs Hs' Hw Hw' Hu Hu' E1 E2) as [B| ->]; [now left|now right].
Qed.
Theorem C152_fee_explicit : forall p p' f f',
  @wf_psbt0 real_root p -> @wf_psbt0 real_root p' -> @signer_checks real_root p = Ok tt -> @signer_checks real_root p' = Ok tt ->
  Forall whole (spends p) -> Forall whole (spends p') -> outpoints p = outpoints p' -> outputs p = outputs p' ->
  psbt0_fee p = Ok f -> psbt0_fee p' = Ok f' -> (exists s s' t t', In s (spends p) /\ In s' (spends p') /\ i0_non_witness_utxo (snd s) = Some t /\ i0_non_witness_utxo (snd s') = Some t'
     /\ dsha_collision (enc_tx_nowit t) (enc_tx_nowit t')) \/ f = f'.
Proof.
  intros p p' f f' W W' K K' H H' E O Hf Hf'. apply C79_fee_ok in Hf as (C & vs & F & _ & _ & Hf). apply C79_fee_ok in Hf' as (C' & vs' & F' & _ & _ & Hf').
  rewrite <- spends_outpoints in E by exact C. rewrite <- (spends_outpoints p') in E by exact C'. rewrite Forall_forall in H, H'.
  destruct (checked_values_explicit p p' (spends p) (spends p') vs vs' W W' K K' (fun s I => conj I (H s I)) (fun s I => conj I (H' s I)) E F F') as [B| ->]; [now left|right].
  unfold pays0, outputs in *. rewrite O in Hf. lia.
Qed.
Print Assumptions C152_fee_explicit.

Theorem C152_segwit_explicit : forall p n s u p' n' s' u' m f f',
  @wf_psbt0 real_root p -> @wf_psbt0 real_root p' -> @signer_checks real_root p = Ok tt -> @signer_checks real_root p' = Ok tt ->
  Forall whole (spends p) -> Forall whole (spends p') ->
  spend_at p n s -> funds0 s u -> (exists c, script_code s u c) -> spend_at p' n' s' -> funds0 s' u' -> (exists c, script_code s' u' c) ->
  @psbt0_sighash_ecdsa real_signer p n (p0_unsigned_tx p) = Ok (m, 0x01) ->
  @psbt0_sighash_ecdsa real_signer p' n' (p0_unsigned_tx p') = Ok (m, 0x01) ->
  psbt0_fee p = Ok f -> psbt0_fee p' = Ok f' -> (exists c c', script_code s u c /\ script_code s' u' c' /\
     same_place (bip143_strings (p0_unsigned_tx p) n (fst s) c (to_value u) 0x01) (bip143_strings (p0_unsigned_tx p') n' (fst s') c' (to_value u') 0x01)) \/ (exists s s' t t', In s (spends p) /\ In s' (spends p') /\ i0_non_witness_utxo (snd s) = Some t /\ i0_non_witness_utxo (snd s') = Some t'
     /\ dsha_collision (enc_tx_nowit t) (enc_tx_nowit t')) \/ f = f'.
Proof.
  intros p n s u p' n' s' u' m f f' W W' K K' H H' Hs Hu Hc Hs' Hu' Hc' M M' Hf Hf'.
  destruct (C150_segwit_explicit real_root p n s u 0x01 p' n' s' u' 0x01 m W W' Hs Hu Hc Hs' Hu' Hc' M M') as [B|(_ & _ & _ & _ & _ & _ & A & _ & O & _)]; [left; exact B|right].
  apply (C152_fee_explicit p p' f f' W W' K K' H H'); auto; [apply A|apply O]; cbn; unfold all_inputs, all_outputs; cbn; tauto.
Qed.
Print Assumptions C152_segwit_explicit.

Theorem C152_legacy_explicit : forall p n s u c p' n' s' u' c' m f f',
  @wf_psbt0 real_root p -> @wf_psbt0 real_root p' -> @signer_checks real_root p = Ok tt -> @signer_checks real_root p' = Ok tt ->
  Forall whole (spends p) -> Forall whole (spends p') ->
  spend_at p n s -> funds0 s u -> legacy_code s u c -> spend_at p' n' s' -> funds0 s' u' -> legacy_code s' u' c' ->
  @psbt0_sighash_ecdsa real_signer p n (p0_unsigned_tx p) = Ok (m, 0x01) ->
  @psbt0_sighash_ecdsa real_signer p' n' (p0_unsigned_tx p') = Ok (m, 0x01) ->
  psbt0_fee p = Ok f -> psbt0_fee p' = Ok f' -> dsha_collision (legacy_string (p0_unsigned_tx p) n c 0x01) (legacy_string (p0_unsigned_tx p') n' c' 0x01) \/ (exists s s' t t', In s (spends p) /\ In s' (spends p') /\ i0_non_witness_utxo (snd s) = Some t /\ i0_non_witness_utxo (snd s') = Some t'
     /\ dsha_collision (enc_tx_nowit t) (enc_tx_nowit t')) \/ f = f'.
Proof.
  intros p n s u c p' n' s' u' c' m f f' W W' K K' H H' Hs Hu Hc Hs' Hu' Hc' M M' Hf Hf'.
  assert (Z : ~ one_output 0x01) by (unfold one_output; cbn; intros [Z|[Z|Z]]; [discriminate Z|discriminate Z|exact Z]).
  destruct (C150_legacy_explicit real_root p n s u c 0x01 p' n' s' u' c' 0x01 m W W' Hs Hu Hc Hs' Hu' Hc' (fun Q => False_ind _ (Z Q)) (fun Q => False_ind _ (Z Q)) M M')
    as [B|(_ & _ & _ & _ & A & _ & O & _)]; [left; exact B|right].
  apply (C152_fee_explicit p p' f f' W W' K K' H H'); auto; [apply A|apply O]; cbn; unfold all_inputs, all_outputs; cbn; tauto.
Qed.
Print Assumptions C152_legacy_explicit.

Theorem C151_segwit_explicit : forall (X : Ext) (C : Cfg) (LC : CfgLaws C) p n i u ty t p' n' i' u' ty' t' m,
  wf_psbt p -> wf_psbt p' -> unsigned_tx p = Ok t -> unsigned_tx p' = Ok t' ->
  input_at p n i -> funds i u -> (exists c, script_code2 i u c) ->
  input_at p' n' i' -> funds i' u' -> (exists c, script_code2 i' u' c) ->
  @psbt_sighash_ecdsa real_signer p n t = Ok (m, ty) -> @psbt_sighash_ecdsa real_signer p' n' t' = Ok (m, ty') ->
  (exists c c', script_code2 i u c /\ script_code2 i' u' c' /\
     same_place (bip143_strings t n (input_unsigned_tx_in i) c (to_value u) ty) (bip143_strings t' n' (input_unsigned_tx_in i') c' (to_value u') ty')) \/
  (ty = ty' /\ same_locks p p' /\ outpoint_of i = outpoint_of i' /\ signed_sequence i = signed_sequence i'
   /\ to_value u = to_value u' /\ (exists c, script_code2 i u c /\ script_code2 i' u' c)
   /\ (all_inputs ty -> map outpoint_of (p_inputs p) = map outpoint_of (p_inputs p'))
   /\ (ty = 0x01 -> map signed_sequence (p_inputs p) = map signed_sequence (p_inputs p'))
   /\ (all_outputs ty -> payments p = payments p')
   /\ (one_output ty -> forall o o', nth_error (payments p) (N.to_nat n) = Some o -> nth_error (payments p') (N.to_nat n') = Some o' -> o = o')).
Proof.
  intros X C LC p n i u ty t p' n' i' u' ty' t' m W W' Ht Ht' Hi Hu Hc Hi' Hu' Hc' H H'.
  destruct (commit2_tx LC p t W Ht) as (Wt & Ev & Ek & Ei & Eo), (commit2_tx LC p' t' W' Ht') as (Wt' & Ev' & Ek' & Ei' & Eo').
  apply (commit2_to_sign X C p n i u t m ty Hi Hu Ei) in H as [Ty M]. apply (commit2_to_sign X C p' n' i' u' t' m ty' Hi' Hu' Ei') in H' as [Ty' M'].
  apply commit2_message in M as [M _]. apply commit2_message in M' as [M' _]. destruct (M Hc) as (c & K & ->), (M' Hc') as (c' & K' & E). clear M M'.
  destruct (commit_ecdsa_bits ty Ty) as (T1 & BA & BU & BS). destruct (commit_ecdsa_bits ty' Ty') as (T1' & _).
  assert (I : In i (p_inputs p)) by (destruct Hi as [Hi _]; now apply nth_error_In in Hi).
  assert (I' : In i' (p_inputs p')) by (destruct Hi' as [Hi' _]; now apply nth_error_In in Hi').
  pose proof (commit2_funds p i u W I Hu) as [Wv _]. pose proof (commit2_funds p' i' u' W' I' Hu') as [Wv' _].
  pose proof (commit2_input _ _ _ Hi) as Ni. pose proof (commit2_input _ _ _ Hi') as Ni'. rewrite <- Ei in Ni. rewrite <- Ei' in Ni'.
  destruct (segwit_in _ _ _ _ _ _ _ _ _ _ _ _ Wt Wt' T1 T1' (commit2_code _ _ _ _ W I Hu (or_introl K)) (commit2_code _ _ _ _ W' I' Hu' (or_introl K'))
    Wv Wv' Ni Ni' E) as [B|(<- & <- & Ex & E1 & E2 & I1 & I2 & I3 & A1 & A2 & O1 & O2)]; [left; exists c, c'; auto|right].
  rewrite Ei, Ei', !commit2_outpoints, !commit2_sequences in *. rewrite Eo, Eo' in *.
  split; [reflexivity|]. split; [split; [congruence|exists (tx_lock_time t); split; [exact Ek|now rewrite E2]]|].
  split; [cbn in I1, I2; unfold outpoint_of; congruence|].
  split; [unfold signed_sequence; cbn in I3; unfold opt_default, SEQ_ZERO in I3; destruct (in_sequence i), (in_sequence i'); exact I3|].
  split; [exact Ex|]. split; [now exists c|]. split; [auto|]. split; [intros ->; apply A2; [reflexivity| |]; discriminate|].
  split; [intros A; apply BU in A as [Q1 Q2]; apply commit2_payments; exact (O1 Q1 Q2)|].
  intros A o o' Ho Ho'. pose proof (O2 (BS A) _ _ (commit2_output _ _ _ Ho) (commit2_output _ _ _ Ho')) as Q. destruct o, o'. cbn in Q. congruence.
Qed.
Print Assumptions C151_segwit_explicit.

Theorem C151_legacy_explicit : forall (X : Ext) (C : Cfg) (LC : CfgLaws C) p n i u c ty t p' n' i' u' c' ty' t' m,
  wf_psbt p -> wf_psbt p' -> unsigned_tx p = Ok t -> unsigned_tx p' = Ok t' ->
  input_at p n i -> funds i u -> legacy_code2 i u c ->
  input_at p' n' i' -> funds i' u' -> legacy_code2 i' u' c' ->
  (one_output ty -> n < blen (p_outputs p)) -> (one_output ty' -> n' < blen (p_outputs p')) ->
  @psbt_sighash_ecdsa real_signer p n t = Ok (m, ty) -> @psbt_sighash_ecdsa real_signer p' n' t' = Ok (m, ty') ->
  dsha_collision (legacy_string t n c ty) (legacy_string t' n' c' ty') \/
  (ty = ty' /\ same_locks p p'
   /\ (one_input ty \/ c <> [] -> outpoint_of i = outpoint_of i' /\ signed_sequence i = signed_sequence i' /\ c = c')
   /\ (all_inputs ty -> map outpoint_of (p_inputs p) = map outpoint_of (p_inputs p') /\ (c <> [] -> n = n'))
   /\ (ty = 0x01 -> map signed_sequence (p_inputs p) = map signed_sequence (p_inputs p'))
   /\ (all_outputs ty -> payments p = payments p')
   /\ (one_output ty -> n = n' /\ nth_error (payments p) (N.to_nat n) = nth_error (payments p') (N.to_nat n'))).
Proof.
  intros X C LC p n i u c0 ty t p' n' i' u' c0' ty' t' m W W' Ht Ht' Hi Hu Hc Hi' Hu' Hc' HS HS' H H'.
  assert (Fun : forall i u c c', legacy_code2 i u c -> legacy_code2 i u c' -> c = c').
  { clear. intros i u c c' [K|b K E] [K'|b' K' E']; [reflexivity| | |congruence]; pose proof (kind_unique _ _ _ _ K K') as Q; discriminate Q. }
  destruct (commit2_tx LC p t W Ht) as (Wt & Ev & Ek & Ei & Eo), (commit2_tx LC p' t' W' Ht') as (Wt' & Ev' & Ek' & Ei' & Eo').
  apply (commit2_to_sign X C p n i u t m ty Hi Hu Ei) in H as [Ty M]. apply (commit2_to_sign X C p' n' i' u' t' m ty' Hi' Hu' Ei') in H' as [Ty' M'].
  apply commit2_message in M as [_ M]. apply commit2_message in M' as [_ M'].
  destruct (M (ex_intro _ _ Hc)) as (c & K & ->), (M' (ex_intro _ _ Hc')) as (c' & K' & E). clear M M'.
  rewrite (Fun _ _ _ _ Hc K), (Fun _ _ _ _ Hc' K'). clear Hc Hc' c0 c0' Fun.
  assert (S3 : forall ty, In ty [0x01; 0x02; 0x03; 0x81; 0x82; 0x83] -> base_type ty = 3 -> one_output ty).
  { clear. intros ty H. unfold one_output. cbn [In] in *. decompose [or] H; subst; try contradiction; cbn; intros; try discriminate; tauto. }
  assert (O1 : one_input ty -> anyone ty = true).
  { clear. unfold one_input. cbn [In]. intros H. decompose [or] H; subst; try contradiction; reflexivity. }
  destruct (commit_ecdsa_bits ty Ty) as (T1 & BA & BU & BS). destruct (commit_ecdsa_bits ty' Ty') as (T1' & _).
  assert (I : In i (p_inputs p)) by (destruct Hi as [Hi _]; now apply nth_error_In in Hi).
  assert (I' : In i' (p_inputs p')) by (destruct Hi' as [Hi' _]; now apply nth_error_In in Hi').
  pose proof (commit2_input _ _ _ Hi) as Ni. pose proof (commit2_input _ _ _ Hi') as Ni'. rewrite <- Ei in Ni. rewrite <- Ei' in Ni'.
  rewrite <- (blen_map output_tx_out), <- Eo in HS. rewrite <- (blen_map output_tx_out), <- Eo' in HS'.
  destruct (legacy_in _ _ _ _ _ _ _ _ _ _ Wt Wt' T1 T1' (commit2_code _ _ _ _ W I Hu (or_intror K)) (commit2_code _ _ _ _ W' I' Hu' (or_intror K'))
    Ni Ni' (fun E => HS (S3 _ Ty E)) (fun E => HS' (S3 _ Ty' E)) E) as [B|(<- & E1 & E2 & A1 & A2 & A3 & J & Q1 & Q2)]; [now left|right].
  rewrite Ei, Ei', !commit2_outpoints, !commit2_sequences in *. rewrite Eo, Eo' in *.
  split; [reflexivity|]. split; [split; [congruence|exists (tx_lock_time t); split; [exact Ek|now rewrite E2]]|].
  split; [|split; [|split; [|split]]].
  - intros Z. destruct J as (I1 & I2 & I3 & I4); [destruct Z; auto|]. split; [cbn in I1, I2; unfold outpoint_of; congruence|]. split; [|exact I4].
    unfold signed_sequence; cbn in I3; unfold opt_default, SEQ_ZERO in I3; destruct (in_sequence i), (in_sequence i'); exact I3.
  - intros A. apply BA in A. split; [exact (A1 A)|exact (A3 A)].
  - intros ->. apply A2; [reflexivity| |]; discriminate.
  - intros A. apply BU in A as [Z1 Z2]. apply commit2_payments. exact (Q1 Z1 Z2).
  - intros A. destruct (Q2 (BS A)) as [-> Q]. split; [reflexivity|]. rewrite !nth_error_map in Q. unfold payments. rewrite !nth_error_map.
    destruct (nth_error (p_outputs p) (N.to_nat n')), (nth_error (p_outputs p') (N.to_nat n')); cbn in *; try discriminate Q; [|reflexivity].
    injection Q as Q1' Q2'. unfold payment_of. now rewrite Q1', Q2'.
Qed.
Print Assumptions C151_legacy_explicit.

Theorem C151_id_explicit : forall (C : Cfg) (LC : CfgLaws C) p p' h,
  @wf_psbt real_root C p -> @wf_psbt real_root C p' -> @psbt_id real_root p = Ok h -> @psbt_id real_root p' = Ok h ->
  (exists k k' b b', bip370_lock_time p (Some k) /\ bip370_lock_time p' (Some k')
     /\ id_preimage (g_tx_version (p_global p)) k (map outpoint_of (p_inputs p)) (map payment_of (p_outputs p)) b
     /\ id_preimage (g_tx_version (p_global p')) k' (map outpoint_of (p_inputs p')) (map payment_of (p_outputs p')) b'
     /\ dsha_collision b b') \/
  (same_locks p p' /\ map outpoint_of (p_inputs p) = map outpoint_of (p_inputs p') /\ payments p = payments p').
Proof.
  intros C LC p p' h W W' H H'. pose proof (@commit2_fits real_root C LC p W) as F. pose proof (@commit2_fits real_root C LC p' W') as F'.
  apply (C20_id_preimage real_root p h F) in H as (k & b & K & B & ->). apply (C20_id_preimage real_root p' _ F') in H' as (k' & b' & K' & B' & E).
  pose proof (@commit2_lock real_root C p k W K) as Wk. pose proof (@commit2_lock real_root C p' k' W' K') as Wk'.
  apply twice_in in E as [<-|E]; [right|left; exists k, k', b, b'; repeat (split; [assumption|]); exact E]. destruct F as (V & _ & _ & Fi & Fo), F' as (V' & _ & _ & Fi' & Fo').
  assert (G : forall l, Forall (fun o => out_amount o < 2 ^ 64 /\ blen (out_script_pubkey o) < 2 ^ 64) l -> Forall (fun o : N * bytes => fst o < 2 ^ 64) (map payment_of l)).
  { clear. intros l H. rewrite Forall_map. eapply Forall_impl; [|exact H]. cbn. tauto. }
  assert (G' : forall l, Forall (fun i => length (in_previous_txid i) = 32%nat /\ in_spent_output_index i < 2 ^ 32) l ->
    Forall (fun op : bytes * N => length (fst op) = 32%nat /\ snd op < 2 ^ 32) (map outpoint_of l)).
  { clear. intros l H. rewrite Forall_map. exact H. }
  destruct (C20_preimage_injective _ _ _ _ _ _ _ _ b V Wk V' Wk' (G' _ Fi) (G' _ Fi') (G _ Fo) (G _ Fo') B B') as (E1 & <- & E3 & E4).
  split; [split; [exact E1|now exists k]|]. split; [exact E3|exact E4].
Qed.
Print Assumptions C151_id_explicit.

Lemma sha_app_in a b r s : real_sha256 a ++ r = real_sha256 b ++ s -> (a = b \/ collide a b) /\ r = s.
Proof. intros H. apply app_inj_len in H as [E ->]; [|now rewrite !real_sha256_len]. split; [|reflexivity]. now apply once_in. Qed.
Lemma tail_in (single : bool) (o o' : option txout) (leaf leaf' : option bytes) :
  leaf_len leaf -> leaf_len leaf' -> (leaf = None <-> leaf' = None) ->
  (forall u, o = Some u -> wf_txout u) -> (forall u, o' = Some u -> wf_txout u) ->
  (single = true -> o <> None) -> (single = true -> o' <> None) ->
  (if single then match o with Some o => real_sha256 (enc_txout o) | None => [] end else [])
    ++ match leaf with Some h => h ++ [x00; xff; xff; xff; xff] | None => [] end =
  (if single then match o' with Some o => real_sha256 (enc_txout o) | None => [] end else [])
    ++ match leaf' with Some h => h ++ [x00; xff; xff; xff; xff] | None => [] end ->
  (exists u u', o = Some u /\ o' = Some u' /\ collide (enc_txout u) (enc_txout u')) \/ (leaf = leaf' /\ (single = true -> o = o')).
Proof.
  intros Ll Ll' Hn Wo Wo' So So' H.
  assert (L : forall r r' : bytes, r = match leaf with Some h => h ++ [x00; xff; xff; xff; xff] | None => [] end ->
    r' = match leaf' with Some h => h ++ [x00; xff; xff; xff; xff] | None => [] end -> r = r' -> leaf = leaf').
  { intros r r' -> ->. destruct leaf as [h|], leaf' as [h'|]; intros E; try reflexivity.
    - apply app_inj_len in E as [-> _]; [reflexivity|]. rewrite (Ll h eq_refl), (Ll' h' eq_refl). reflexivity.
    - destruct (proj2 Hn eq_refl). reflexivity.
    - destruct (proj1 Hn eq_refl). reflexivity. }
  destruct single; [|right; split; [|discriminate]; exact (L _ _ eq_refl eq_refl H)].
  destruct o as [u|]; [|now destruct So]. destruct o' as [u'|]; [|now destruct So'].
  apply sha_app_in in H as [[E|E] H]; [|left; exists u, u'; auto]. right. split; [exact (L _ _ eq_refl eq_refl H)|]. intros _. f_equal.
  destruct (rt_inj wf_txout enc_txout dec_txout u u' [] []) as [-> _]; auto.
  - exact dec_txout_rt.
  - now rewrite !app_nil_r.
Qed.
Lemma tap_message_in t n prev leaf ty t' n' prev' leaf' ty' :
  wf_tx t -> wf_tx t' -> ty < 256 -> ty' < 256 -> given t n prev ty -> given t' n' prev' ty' -> leaf_len leaf -> leaf_len leaf' ->
  (N.land ty 3 = 3 -> nth_error (tx_output t) (N.to_nat n) <> None) ->
  (N.land ty' 3 = 3 -> nth_error (tx_output t') (N.to_nat n') <> None) ->
  tap_message t n prev leaf ty = tap_message t' n' prev' leaf' ty' ->
  same_place1 (bip341_strings t n prev leaf ty) (bip341_strings t' n' prev' leaf' ty') \/
  (ty = ty' /\ leaf = leaf' /\ tx_version t = tx_version t' /\ tx_lock_time t = tx_lock_time t'
   /\ (N.testbit ty 7 = false -> n = n' /\ prev = prev'
         /\ map (fun i => (ti_txid i, ti_vout i)) (tx_input t) = map (fun i => (ti_txid i, ti_vout i)) (tx_input t')
         /\ map ti_sequence (tx_input t) = map ti_sequence (tx_input t'))
   /\ (N.testbit ty 7 = true -> exists i i' u, nth_error (tx_input t) (N.to_nat n) = Some i /\ nth_error (tx_input t') (N.to_nat n') = Some i'
         /\ ti_txid i = ti_txid i' /\ ti_vout i = ti_vout i' /\ ti_sequence i = ti_sequence i'
         /\ prev = PrevoutsOne n u /\ prev' = PrevoutsOne n' u)
   /\ (N.land ty 3 <> 2 -> N.land ty 3 <> 3 -> tx_output t = tx_output t')
   /\ (N.land ty 3 = 3 -> nth_error (tx_output t) (N.to_nat n) = nth_error (tx_output t') (N.to_nat n'))).
Proof.
  intros (Wv & Wl & _ & Wi & _ & Wo) (Wv' & Wl' & _ & Wi' & _ & Wo') Hty Hty' G G' Ll Ll' Sg Sg' H.
  unfold tap_message in H. cbv zeta in H. apply app_inj_len in H as [E H]; [|reflexivity]. injection E as E.
  apply (f_equal b2n) in E. rewrite !b2n_n2b in E by assumption. subst ty'.
  assert (KI : forall j a b, nth_error (bip341_strings t n prev leaf ty) j = Some a -> nth_error (bip341_strings t' n' prev' leaf' ty) j = Some b ->
    collide a b -> same_place1 (bip341_strings t n prev leaf ty) (bip341_strings t' n' prev' leaf' ty)) by (intros j a b Ja Jb Jc; exists j, a, b; auto).
  set (Coll := same_place1 (bip341_strings t n prev leaf ty) (bip341_strings t' n' prev' leaf' ty)) in *. clearbody Coll.
  apply (le_app_inj 4) in H as [Ev H]; [|exact Wv|exact Wv']. apply (le_app_inj 4) in H as [El H]; [|exact Wl|exact Wl'].
  unfold given in G, G'.
  assert (Q : forall l k u, Forall wf_txout l -> nth_error l k = Some u -> wf_txout u).
  { intros l k u F N. apply nth_error_In in N. rewrite Forall_forall in F. auto. }
  assert (Tail : (if N.land ty 3 =? 3 then match nth_error (tx_output t) (N.to_nat n) with Some o => real_sha256 (enc_txout o) | None => [] end else [])
    ++ match leaf with Some h => h ++ [x00; xff; xff; xff; xff] | None => [] end =
    (if N.land ty 3 =? 3 then match nth_error (tx_output t') (N.to_nat n') with Some o => real_sha256 (enc_txout o) | None => [] end else [])
    ++ match leaf' with Some h => h ++ [x00; xff; xff; xff; xff] | None => [] end -> (leaf = None <-> leaf' = None) ->
    Coll \/ (leaf = leaf' /\ (N.land ty 3 = 3 -> nth_error (tx_output t) (N.to_nat n) = nth_error (tx_output t') (N.to_nat n')))).
  { intros K Hn. rewrite <- N.eqb_eq. match type of K with (if ?s then match ?o with _ => _ end else _) ++ _ = (if _ then match ?o' with _ => _ end else _) ++ _ =>
    destruct (tail_in s o o' leaf leaf') as [(v & v' & Ho & Ho' & Cv)|R]; auto; try (intros u; apply Q; auto); try (rewrite N.eqb_eq; auto) end.
    left. apply (KI 6%nat (enc_txout v) (enc_txout v')); [cbn [nth_error bip341_strings]; now rewrite Ho|cbn [nth_error bip341_strings]; now rewrite Ho'|exact Cv]. }
  assert (Flag : forall r s, [match leaf with Some _ => x02 | None => x00 end] ++ r = [match leaf' with Some _ => x02 | None => x00 end] ++ s ->
    (leaf = None <-> leaf' = None) /\ r = s).
  { intros r s K. cbn [app] in K. injection K as K ->. split; [|reflexivity]. destruct leaf, leaf'; try discriminate K; split; congruence. }
  assert (Outs : forall r s, (if (N.land ty 3 =? 2) || (N.land ty 3 =? 3) then [] else real_sha256 (flat_map enc_txout (tx_output t))) ++ r
      = (if (N.land ty 3 =? 2) || (N.land ty 3 =? 3) then [] else real_sha256 (flat_map enc_txout (tx_output t'))) ++ s ->
    (Coll \/ (N.land ty 3 <> 2 -> N.land ty 3 <> 3 -> tx_output t = tx_output t')) /\ r = s).
  { intros r s K. destruct ((N.land ty 3 =? 2) || (N.land ty 3 =? 3)) eqn:B.
    - split; [right; intros; lia|exact K].
    - apply sha_app_in in K as [[K|K] ->]; (split; [|reflexivity]); [right; intros _ _; now apply txouts_inj|left; eapply (KI 5%nat); [reflexivity|reflexivity|exact K]]. }
  destruct (N.testbit ty 7) eqn:A.
  - cbn [app] in H. destruct (Outs _ _ H) as [OO H']; clear H; rename H' into H; destruct OO as [O|O]; [left; exact O|]. apply Flag in H as [Fl H].
    destruct G as (i & u & Hi & Gp & Wu), G' as (i' & u' & Hi' & Gp' & Wu'). rewrite Gp, Gp' in H. rewrite Hi, Hi' in H. cbn [one_prevout] in H.
    rewrite <- !app_assoc in H.
    assert (wf_txin i) by (apply nth_error_In in Hi; rewrite Forall_forall in Wi; auto).
    assert (wf_txin i') by (apply nth_error_In in Hi'; rewrite Forall_forall in Wi'; auto).
    apply outpoint_inj in H as [Eo H]; auto. injection Eo as Eo1 Eo2.
    apply (rt_inj wf_txout enc_txout dec_txout) in H as [-> H]; auto; [|exact dec_txout_rt].
    apply (le_app_inj 4) in H as [Es H]; [|now destruct H0 as (_ & _ & _ & ? & _)|now destruct H1 as (_ & _ & _ & ? & _)].
    destruct (Tail H Fl) as [B|[-> Ts]]; [now left|]. right.
    do 4 (split; [auto|]). split; [discriminate|]. split; [|auto]. intros _. exists i, i', u'. auto 8.
  - rewrite <- !app_assoc in H. apply sha_app_in in H as [[E|E] H]; [|left; eapply (KI 1%nat); [reflexivity|reflexivity|exact E]]. apply sha_app_in in H as [[E0|E0] H]; [|left; eapply (KI 2%nat); [reflexivity|reflexivity|exact E0]]. apply sha_app_in in H as [[E1|E1] H]; [|left; eapply (KI 3%nat); [reflexivity|reflexivity|exact E1]]. apply sha_app_in in H as [[E2|E2] H]; [|left; eapply (KI 4%nat); [reflexivity|reflexivity|exact E2]]. destruct (Outs _ _ H) as [OO H']; clear H; rename H' into H; destruct OO as [O|O]; [left; exact O|]. apply Flag in H as [Fl H].
    destruct G as (us & -> & Wu & Hn), G' as (us' & -> & Wu' & Hn'). cbn [all_prevouts] in *.
    apply (le_app_inj 4) in H as [-> H]; auto. destruct (Tail H Fl) as [B|[-> Ts]]; [now left|]. right.
    do 4 (split; [auto|]). split; [|split; [discriminate|auto]]. intros _. split; [reflexivity|].
    split; [f_equal; now apply prevouts_inj|]. split; [now apply outpoints_inj|now apply sequences_inj].
Qed.
Lemma real_taproot_in t n prev leaf ty t' n' prev' leaf' ty' :
  real_taproot t n prev leaf ty = real_taproot t' n' prev' leaf' ty' ->
  same_place1 (bip341_strings t n prev leaf ty) (bip341_strings t' n' prev' leaf' ty') \/ tap_message t n prev leaf ty = tap_message t' n' prev' leaf' ty'.
Proof.
  unfold real_taproot, tagged. cbv zeta. intros H. apply once_in in H as [H|H]; [right; now apply app_inv_head, app_inv_head in H|left].
  exists 0%nat. eexists _, _. split; [reflexivity|]. split; [reflexivity|exact H].
Qed.
(** The outputs that the inputs spend, as they are given to the digest: all, or that of the input. *)
Definition prevouts_of (p : psbt0) (n : N) (prev : prevouts) : Prop :=
  (exists us, prev = PrevoutsAll us /\ Forall2 funds0 (spends p) us) \/ (exists s u, prev = PrevoutsOne n u /\ spend_at p n s /\ funds0 s u).
Lemma prevouts_from p n s u prev ty : spend_at p n s -> funds0 s u -> given (p0_unsigned_tx p) n prev ty ->
  (forall v, prev = PrevoutsOne n v -> v = u) -> (forall us, prev = PrevoutsAll us -> Forall2 funds0 (spends p) us) -> prevouts_of p n prev.
Proof.
  intros Hs Hu G P1 PA. unfold given in G. destruct (N.testbit ty 7).
  - destruct G as (_ & v & _ & E & _). right. exists s, u. rewrite E, (P1 v E). auto.
  - destruct G as (us & E & _). left. exists us. split; [exact E|]. now apply PA.
Qed.
Theorem C150_taproot_explicit : forall (X : Ext) (T : SchnorrExt) p n leaf ty p' n' leaf' ty' m,
  wf_psbt0 p -> wf_psbt0 p' -> vouts_in_bounds p -> vouts_in_bounds p' ->
  (forall h, leaf = Some h -> length h = 32%nat) -> (forall h, leaf' = Some h -> length h = 32%nat) ->
  @psbt0_sighash_taproot (with_bip341 T) p n (p0_unsigned_tx p) leaf = Ok (m, ty) ->
  @psbt0_sighash_taproot (with_bip341 T) p' n' (p0_unsigned_tx p') leaf' = Ok (m, ty') ->
  (exists prev prev', prevouts_of p n prev /\ prevouts_of p' n' prev' /\
     same_place1 (bip341_strings (p0_unsigned_tx p) n prev leaf ty) (bip341_strings (p0_unsigned_tx p') n' prev' leaf' ty')) \/
  (ty = ty' /\ leaf = leaf' /\ tx_version (p0_unsigned_tx p) = tx_version (p0_unsigned_tx p')
   /\ tx_lock_time (p0_unsigned_tx p) = tx_lock_time (p0_unsigned_tx p')
   /\ (exists s s' u, spend_at p n s /\ spend_at p' n' s' /\ same_input (fst s) (fst s') /\ funds0 s u /\ funds0 s' u)
   /\ (all_inputs ty -> n = n' /\ outpoints p = outpoints p' /\ sequences p = sequences p'
         /\ exists us, Forall2 funds0 (spends p) us /\ Forall2 funds0 (spends p') us)
   /\ (all_outputs ty -> outputs p = outputs p')
   /\ (one_output ty -> exists o, nth_error (outputs p) (N.to_nat n) = Some o /\ nth_error (outputs p') (N.to_nat n') = Some o)).
Proof.
  intros X T p n leaf ty p' n' leaf' ty' m W W' V V' Ll Ll' H H'.
  apply (proj1 (C87_digest X (with_bip341 T) p n leaf m ty V)) in H. apply (proj1 (C87_digest X (with_bip341 T) p' n' leaf' m ty' V')) in H'.
  apply commit_to_sign in H as (s & u & prev & Hs & Hu & Hty & E & G & Sg & P1 & PA); [|exact W].
  apply commit_to_sign in H' as (s' & u' & prev' & Hs' & Hu' & Hty' & E' & G' & Sg' & P1' & PA'); [|exact W'].
  rewrite E in E'. assert (PP : prevouts_of p n prev) by exact (prevouts_from p n s u prev ty Hs Hu G P1 PA).
  assert (PP' : prevouts_of p' n' prev') by exact (prevouts_from p' n' s' u' prev' ty' Hs' Hu' G' P1' PA').
  apply real_taproot_in in E' as [B|E']; [left; exists prev, prev'; auto|].
  destruct (commit_taproot_bits ty Hty) as (T1 & BA & BO & BU & BS). destruct (commit_taproot_bits ty' Hty') as (T1' & _).
  destruct (tap_message_in _ _ _ _ _ _ _ _ _ _ (wp0_tx _ W) (wp0_tx _ W') T1 T1' G G' Ll Ll' Sg Sg' E')
    as [B|(-> & -> & Ev & El & All & One & Outs & Single)]; [left; exists prev, prev'; auto|].
  right. do 4 (split; [auto|]). split; [|split; [|split]].
  - exists s, s'. pose proof (commit_input _ _ _ Hs) as Ni. pose proof (commit_input _ _ _ Hs') as Ni'.
    destruct (N.testbit ty' 7) eqn:A.
    + destruct (One eq_refl) as (i & i' & v & Hi & Hi' & I1 & I2 & I3 & -> & ->). rewrite (P1 v eq_refl) in *. rewrite <- (P1' u eq_refl) in Hu'.
      exists u. assert (i = fst s) by congruence. assert (i' = fst s') by congruence. subst i i'. unfold same_input. auto 8.
    + destruct (All eq_refl) as (<- & <- & I1 & I2). unfold given in G. rewrite A in G. destruct G as (us & -> & _).
      specialize (PA us eq_refl). specialize (PA' us eq_refl). destruct (nth_error us (N.to_nat n)) as [v|] eqn:Eu.
      2:{ apply F2_len in PA. apply nth_error_None in Eu. unfold spend_at in Hs. assert (N.to_nat n < length (spends p))%nat by (apply nth_error_Some; congruence). lia. }
      exists v. split; [auto|]. split; [auto|]. split.
      * apply (f_equal (fun l => nth_error l (N.to_nat n))) in I1. apply (f_equal (fun l => nth_error l (N.to_nat n))) in I2.
        rewrite !nth_error_map, Ni, Ni' in I1. rewrite !nth_error_map, Ni, Ni' in I2. cbn in I1, I2. injection I1 as J1 J2. injection I2 as J3. split; auto.
      * split; [exact (F2_get _ _ _ PA _ _ _ Hs Eu)|exact (F2_get _ _ _ PA' _ _ _ Hs' Eu)].
  - intros A. apply BA in A. destruct (All A) as (<- & <- & I1 & I2). split; [reflexivity|]. split; [exact I1|]. split; [exact I2|].
    unfold given in G. rewrite A in G. destruct G as (us & -> & _). exists us. auto.
  - intros A. apply BU in A as [A1 A2]. exact (Outs A1 A2).
  - intros A. apply BS in A. specialize (Single A). specialize (Sg A). unfold outputs.
    destruct (nth_error (tx_output (p0_unsigned_tx p)) (N.to_nat n)) as [o|]; [|now destruct Sg]. exists o. auto.
Qed.
Print Assumptions C150_taproot_explicit.
