(** C150: what a signature covers. *)
From Verif Require Import Base OMap Consensus ConsensusFacts Ext RealExt RealLaws RealSign ExtInstance Serialize SerializeFacts
  V2Sign SpecSign V2SignFacts SampleV2 V0Input V0Output V0Psbt SpecPsbt0 V0WireFacts SpecExtract0 V0ExtractFacts V0Sign SpecSign0 V0SignFacts
  V0Update RealTaproot DigestFacts SpecCommit PropertiesV0Extract PropertiesV0Sign.
Local Open Scope N_scope.

(** ** Values of well-formed PSBTs *)

Lemma commit_funds `{X : Ext} p s u : wf_psbt0 p -> In s (spends p) -> funds0 s u -> wf_txout u.
Proof.
  intros W Hs Hu. destruct s as [i m]. apply in_combine_r in Hs. pose proof (wp0_inputs _ W) as F. rewrite Forall_forall in F.
  apply F in Hs as Hm. destruct Hu as [E|[_ (t & E & N)]]; cbn [fst snd] in *.
  - pose proof (wi0_witness_utxo _ Hm) as Q. rewrite E in Q. apply Q.
  - pose proof (wi0_non_witness_utxo _ Hm) as Q. rewrite E in Q. destruct Q as [(_ & _ & _ & _ & _ & Q) _].
    apply nth_error_In in N. rewrite Forall_forall in Q. auto.
Qed.
Lemma commit_all_funds `{X : Ext} p us : wf_psbt0 p -> Forall2 funds0 (spends p) us -> Forall wf_txout us.
Proof.
  intros W F. assert (H : forall s, In s (spends p) -> In s (spends p)) by auto. revert F H. generalize (spends p) at 1 2.
  intros l F. induction F as [|s u l us Hu F IH]; intros H; constructor.
  - eapply commit_funds; [exact W|apply H; now left|exact Hu].
  - apply IH. intros s' Hs'. apply H. now right.
Qed.
Lemma commit_input p n s : spend_at p n s -> nth_error (tx_input (p0_unsigned_tx p)) (N.to_nat n) = Some (fst s).
Proof.
  unfold spend_at, spends. generalize (N.to_nat n) (p0_inputs p). induction (tx_input (p0_unsigned_tx p)) as [|i l IH]; intros [|k] [|m ms] H; try discriminate H.
  - injection H as <-. reflexivity.
  - cbn in *. eauto.
Qed.
Lemma commit_in p n s : spend_at p n s -> In s (spends p).
Proof. apply nth_error_In. Qed.
Lemma commit_index `{X : Ext} p n s : wf_psbt0 p -> spend_at p n s -> n < 2 ^ 32.
Proof.
  intros W Hs. apply spend_at_lt in Hs as [_ Hs]. pose proof (wp0_tx_size _ W) as Z. unfold tx_base_size, enc_tx_nowit, enc_vec in Z. rewrite !blen_app in Z.
  assert (Q : blen (tx_input (p0_unsigned_tx p)) <= blen (enc_all enc_txin (tx_input (p0_unsigned_tx p)))).
  { generalize (tx_input (p0_unsigned_tx p)). intros l. induction l as [|i l IH]; [apply N.le_refl|]. rewrite enc_all_cons, blen_app, blen_cons.
    assert (1 <= blen (enc_txin i)); [|lia]. unfold enc_txin, blen. rewrite !app_length, enc_u32_length. lia. }
  unfold MAX_VALUE in Z. lia.
Qed.
Lemma commit_taproot_bits ty : In ty [0x00; 0x01; 0x02; 0x03; 0x81; 0x82; 0x83] ->
  ty < 256 /\ (all_inputs ty <-> N.testbit ty 7 = false) /\ (one_input ty <-> N.testbit ty 7 = true)
  /\ (all_outputs ty <-> N.land ty 3 <> 2 /\ N.land ty 3 <> 3) /\ (one_output ty <-> N.land ty 3 = 3).
Proof.
  intros H. unfold all_inputs, one_input, all_outputs, one_output. cbn [In] in *.
  decompose [or] H; subst; try contradiction; cbn; repeat split; intros; try lia; try discriminate; intuition discriminate.
Qed.

Lemma commit_to_sign `{X : Ext} (T : SchnorrExt) p n leaf m ty : wf_psbt0 p -> @taproot_to_sign (with_bip341 T) p n leaf m ty ->
  exists s u prev, spend_at p n s /\ funds0 s u /\ In ty [0x00; 0x01; 0x02; 0x03; 0x81; 0x82; 0x83]
    /\ m = real_taproot (p0_unsigned_tx p) n prev leaf ty /\ given (p0_unsigned_tx p) n prev ty
    /\ (N.land ty 3 = 3 -> nth_error (tx_output (p0_unsigned_tx p)) (N.to_nat n) <> None)
    /\ (forall v, prev = PrevoutsOne n v -> v = u)
    /\ (forall us, prev = PrevoutsAll us -> Forall2 funds0 (spends p) us).
Proof.
  intros W (s & u & Hs & Hu & _ & [Hty _] & Hn & H). destruct (commit_taproot_bits ty Hty) as (_ & BA & BO & _ & BS).
  assert (Hsingle : N.land ty 3 = 3 -> nth_error (tx_output (p0_unsigned_tx p)) (N.to_nat n) <> None).
  { intros E. apply nth_error_Some. apply BS, Hn in E. unfold blen in E. lia. }
  destruct H as [[Ha ->]|(Ha & _ & us & Hus & ->)].
  - exists s, u, (PrevoutsOne n u). do 4 (split; [auto|]). split; [|split; [exact Hsingle|split; congruence]].
    unfold given. rewrite (proj1 BO Ha). exists (fst s), u. split; [now apply commit_input|]. split; [reflexivity|].
    eapply commit_funds; [exact W|eapply commit_in; exact Hs|exact Hu].
  - exists s, u, (PrevoutsAll us). do 4 (split; [auto|]). split; [|split; [exact Hsingle|split; congruence]].
    unfold given. rewrite (proj1 BA Ha). exists us. split; [reflexivity|]. split; [eapply commit_all_funds; eassumption|].
    eapply commit_index; eassumption.
Qed.

(** ** Taproot *)

(** If the same message is signed for two inputs, of the same or different PSBTs, then what they
    sign has in common all that BIP-341 says. *)
Theorem C150_taproot : forall (X : Ext) (T : SchnorrExt) p n leaf ty p' n' leaf' ty' m,
  wf_psbt0 p -> wf_psbt0 p' -> vouts_in_bounds p -> vouts_in_bounds p' ->
  (forall h, leaf = Some h -> length h = 32%nat) -> (forall h, leaf' = Some h -> length h = 32%nat) ->
  @psbt0_sighash_taproot (with_bip341 T) p n (p0_unsigned_tx p) leaf = Ok (m, ty) ->
  @psbt0_sighash_taproot (with_bip341 T) p' n' (p0_unsigned_tx p') leaf' = Ok (m, ty') ->
  collision_found \/
  (ty = ty' /\ leaf = leaf' /\ tx_version (p0_unsigned_tx p) = tx_version (p0_unsigned_tx p')
   /\ tx_lock_time (p0_unsigned_tx p) = tx_lock_time (p0_unsigned_tx p')
   /\ (exists s s' u, spend_at p n s /\ spend_at p' n' s' /\ same_input (fst s) (fst s') /\ funds0 s u /\ funds0 s' u)
   /\ (all_inputs ty -> n = n' /\ outpoints p = outpoints p' /\ sequences p = sequences p'
         /\ exists us, Forall2 funds0 (spends p) us /\ Forall2 funds0 (spends p') us)
   /\ (all_outputs ty -> outputs p = outputs p')
   /\ (one_output ty -> exists o, nth_error (outputs p) (N.to_nat n) = Some o /\ nth_error (outputs p') (N.to_nat n') = Some o)).
Proof.
  intros X T p n leaf ty p' n' leaf' ty' m W W' V V' Ll Ll' H H'.
  apply (proj1 (C87_digest X (with_bip341 T) p n leaf m ty V)) in H. apply (proj1 (C87_digest X (with_bip341 T) p' n' leaf' m ty' V')) in H'.
  apply commit_to_sign in H as (s & u & prev & Hs & Hu & Hty & E & G & Sg & P1 & PA); [|exact W].
  apply commit_to_sign in H' as (s' & u' & prev' & Hs' & Hu' & Hty' & E' & G' & Sg' & P1' & PA'); [|exact W'].
  rewrite E in E'. apply real_taproot_inj in E' as [B|E']; [now left|].
  destruct (commit_taproot_bits ty Hty) as (T1 & BA & BO & BU & BS). destruct (commit_taproot_bits ty' Hty') as (T1' & _).
  destruct (tap_message_inj _ _ _ _ _ _ _ _ _ _ (wp0_tx _ W) (wp0_tx _ W') T1 T1' G G' Ll Ll' Sg Sg' E')
    as [B|(-> & -> & Ev & El & All & One & Outs & Single)]; [now left|].
  right. do 4 (split; [auto|]). split; [|split; [|split]].
  - exists s, s'. pose proof (commit_input _ _ _ Hs) as Ni. pose proof (commit_input _ _ _ Hs') as Ni'.
    destruct (N.testbit ty' 7) eqn:A.
    + destruct (One eq_refl) as (i & i' & v & Hi & Hi' & I1 & I2 & I3 & -> & ->). rewrite (P1 v eq_refl) in *. rewrite <- (P1' u eq_refl) in Hu'.
      exists u. assert (i = fst s) by congruence. assert (i' = fst s') by congruence. subst i i'. unfold same_input. auto 8.
    + destruct (All eq_refl) as (<- & <- & I1 & I2). unfold given in G. rewrite A in G. destruct G as (us & -> & _).
      specialize (PA us eq_refl). specialize (PA' us eq_refl). destruct (nth_error us (N.to_nat n)) as [v|] eqn:Eu.
      2:{ apply F2_len in PA. apply nth_error_None in Eu. unfold spend_at in Hs. assert (N.to_nat n < length (spends p))%nat by (apply nth_error_Some; congruence). lia. }
      exists v. split; [auto|]. split; [auto|]. split.
      * apply (f_equal (fun l => nth_error l (N.to_nat n))) in I1. apply (f_equal (fun l => nth_error l (N.to_nat n))) in I2.
        rewrite !nth_error_map, Ni, Ni' in I1. rewrite !nth_error_map, Ni, Ni' in I2. cbn in I1, I2. injection I1 as J1 J2. injection I2 as J3. split; auto.
      * split; [exact (F2_get _ _ _ PA _ _ _ Hs Eu)|exact (F2_get _ _ _ PA' _ _ _ Hs' Eu)].
  - intros A. apply BA in A. destruct (All A) as (<- & <- & I1 & I2). split; [reflexivity|]. split; [exact I1|]. split; [exact I2|].
    unfold given in G. rewrite A in G. destruct G as (us & -> & _). exists us. auto.
  - intros A. apply BU in A as [A1 A2]. exact (Outs A1 A2).
  - intros A. apply BS in A. specialize (Single A). specialize (Sg A). unfold outputs.
    destruct (nth_error (tx_output (p0_unsigned_tx p)) (N.to_nat n)) as [o|]; [|now destruct Sg]. exists o. auto.
Qed.
Print Assumptions C150_taproot.

(** So a signature of type DEFAULT or ALL covers the fee. *)
Lemma commit_values p us : Forall2 funds0 (spends p) us -> funded0 (spends p) (map to_value us).
Proof. intros F. unfold funded0. induction F; cbn [map]; constructor; eauto. Qed.
Theorem C150_taproot_fee : forall (X : Ext) (T : SchnorrExt) p n leaf ty p' n' leaf' ty' m f,
  wf_psbt0 p -> wf_psbt0 p' -> vouts_in_bounds p -> vouts_in_bounds p' ->
  (forall h, leaf = Some h -> length h = 32%nat) -> (forall h, leaf' = Some h -> length h = 32%nat) ->
  @psbt0_sighash_taproot (with_bip341 T) p n (p0_unsigned_tx p) leaf = Ok (m, ty) ->
  @psbt0_sighash_taproot (with_bip341 T) p' n' (p0_unsigned_tx p') leaf' = Ok (m, ty') ->
  In ty [0x00; 0x01] -> psbt0_fee p = Ok f -> collision_found \/ psbt0_fee p' = Ok f.
Proof.
  intros X T p n leaf ty p' n' leaf' ty' m f W W' V V' Ll Ll' H H' Hty Hf.
  destruct (C150_taproot X T p n leaf ty p' n' leaf' ty' m W W' V V' Ll Ll' H H') as [B|(_ & _ & _ & _ & _ & A & O & _)]; [now left|right].
  assert (A1 : all_inputs ty) by (unfold all_inputs; cbn in *; tauto). assert (O1 : all_outputs ty) by (unfold all_outputs; cbn in *; tauto).
  destruct (A A1) as (_ & _ & _ & us & F & F'). apply O in O1. apply C79_fee_ok in Hf as (_ & vs & Fv & Hf).
  apply C79_fee_ok. split; [exact (wp0_input_count _ W')|]. exists vs.
  rewrite (funded0_unique _ _ _ Fv (commit_values _ _ F)) in *. split; [now apply commit_values|].
  unfold pays0, outputs in *. rewrite <- O1. exact Hf.
Qed.
Print Assumptions C150_taproot_fee.

(** The law that is assumed of the digest (V0Update.v). *)
Theorem C150_anyone : forall T, AnyoneLaws (with_bip341 T).
Proof. intros T. constructor. intros t n us u leaf ty. apply with_bip341_anyone. Qed.
Print Assumptions C150_anyone.

(** ** Segwit version 0 *)

Lemma commit_code `{X : Ext} p n s u c : wf_psbt0 p -> spend_at p n s -> script_code s u c -> wf_vec c.
Proof.
  intros W Hs H. destruct s as [i m]. apply commit_in, in_combine_r in Hs. pose proof (wp0_inputs _ W) as F. rewrite Forall_forall in F.
  apply F in Hs as Hm. unfold wf_vec, U64.
  assert (K : forall h, length h = 20%nat -> blen (p2pkh_script h) < 18446744073709551616).
  { intros h L. unfold p2pkh_script, blen. rewrite !app_length, L. reflexivity. }
  assert (K' : forall c, i0_witness_script m = Some c -> blen c < 18446744073709551616).
  { intros b E. pose proof (wi0_witness_script _ Hm) as Q. rewrite E in Q. unfold SpecPsbt.opt_of, wf_value, MAX_VALUE in Q. lia. }
  destruct H as [h [_ L]|c h _ _ [_ L]|h c _ E|q h c _ _ _ E]; auto.
Qed.
Lemma commit_ecdsa_bits ty : In ty [0x01; 0x02; 0x03; 0x81; 0x82; 0x83] ->
  ty < 2 ^ 32 /\ (all_inputs ty -> anyone ty = false) /\ (all_outputs ty -> base_type ty <> 2 /\ base_type ty <> 3)
  /\ (one_output ty -> base_type ty = 3).
Proof.
  intros H. unfold all_inputs, all_outputs, one_output. cbn [In] in *.
  decompose [or] H; subst; try contradiction; cbn; repeat split; intros; try lia; try discriminate; intuition discriminate.
Qed.
Lemma commit_message `{X : Ext} p n s u ty m : spend_at p n s -> funds0 s u ->
  (exists c, script_code s u c) ->
  @message0 real_signer (p0_unsigned_tx p) n (i0_redeem_script (snd s)) (i0_witness_script (snd s)) u ty m ->
  exists c, script_code s u c /\ m = real_segwit (p0_unsigned_tx p) n c (to_value u) ty.
Proof.
  intros Hs Hu [c Hc] H.
  assert (N : forall o, output_kind (to_script u) (i0_redeem_script (snd s)) o -> o = Wpkh \/ o = Wsh \/ o = ShWpkh \/ o = ShWsh).
  { intros o Ho. assert (Q : exists o', output_kind (to_script u) (i0_redeem_script (snd s)) o' /\ (o' = Wpkh \/ o' = Wsh \/ o' = ShWpkh \/ o' = ShWsh)).
    { destruct Hc as [h H1|r h H1 H2 H3|h c H1 H2|r h c H1 H2 H3 H4];
        [exists Wpkh|exists ShWpkh|exists Wsh|exists ShWsh]; (split; [econstructor; eauto|tauto]). }
    destruct Q as (o' & Ho' & Q). apply kind0_iff with (s := s) in Ho, Ho'. assert (o = o') by congruence. now subst. }
  destruct H as [K|c' K E|h K|c' h K1 K2 K3|h c' K1 K2|q h c' K1 K2 K3 K4].
  - destruct (N _ K) as [|[|[|]]]; discriminate.
  - destruct (N _ K) as [|[|[|]]]; discriminate.
  - exists (p2pkh_script h). split; [now constructor|reflexivity].
  - exists (p2pkh_script h). split; [now apply (CodeShWpkh _ _ c' h)|reflexivity].
  - exists c'. split; [now apply (CodeWsh _ _ h)|reflexivity].
  - exists c'. split; [now apply (CodeShWsh _ _ q h)|reflexivity].
Qed.

Theorem C150_segwit : forall (X : Ext) p n s u ty p' n' s' u' ty' m,
  wf_psbt0 p -> wf_psbt0 p' ->
  spend_at p n s -> funds0 s u -> (exists c, script_code s u c) ->
  spend_at p' n' s' -> funds0 s' u' -> (exists c, script_code s' u' c) ->
  @psbt0_sighash_ecdsa real_signer p n (p0_unsigned_tx p) = Ok (m, ty) ->
  @psbt0_sighash_ecdsa real_signer p' n' (p0_unsigned_tx p') = Ok (m, ty') ->
  collision_found \/
  (ty = ty' /\ tx_version (p0_unsigned_tx p) = tx_version (p0_unsigned_tx p')
   /\ tx_lock_time (p0_unsigned_tx p) = tx_lock_time (p0_unsigned_tx p')
   /\ same_input (fst s) (fst s') /\ to_value u = to_value u' /\ (exists c, script_code s u c /\ script_code s' u' c)
   /\ (all_inputs ty -> outpoints p = outpoints p')
   /\ (ty = 0x01 -> sequences p = sequences p')
   /\ (all_outputs ty -> outputs p = outputs p')
   /\ (one_output ty -> forall o o', nth_error (outputs p) (N.to_nat n) = Some o -> nth_error (outputs p') (N.to_nat n') = Some o' -> o = o')).
Proof.
  intros X p n s u ty p' n' s' u' ty' m W W' Hs Hu Hc Hs' Hu' Hc' H H'.
  apply (proj1 (C33_v0_digest X real_signer p n _ m ty (proj2 (spend_at_lt _ _ _ Hs)))) in H.
  apply (proj1 (C33_v0_digest X real_signer p' n' _ m ty' (proj2 (spend_at_lt _ _ _ Hs')))) in H'.
  destruct H as (s1 & u1 & K1 & K2 & [Ty _] & M), H' as (s2 & u2 & K3 & K4 & [Ty' _] & M').
  assert (s1 = s) by (unfold spend_at in *; congruence). assert (s2 = s') by (unfold spend_at in *; congruence). subst s1 s2.
  rewrite (funds0_fun _ _ _ K2 Hu) in M. rewrite (funds0_fun _ _ _ K4 Hu') in M'. clear K1 K2 K3 K4 u1 u2.
  apply commit_message in M as (c & C & ->); auto. apply commit_message in M' as (c' & C' & E); auto.
  destruct (commit_ecdsa_bits ty Ty) as (T1 & BA & BU & BS). destruct (commit_ecdsa_bits ty' Ty') as (T1' & _).
  pose proof (commit_funds p s u W (commit_in _ _ _ Hs) Hu) as [Wv _]. pose proof (commit_funds p' s' u' W' (commit_in _ _ _ Hs') Hu') as [Wv' _].
  destruct (segwit_inj _ _ (fst s) _ _ _ _ _ (fst s') _ _ _ (wp0_tx _ W) (wp0_tx _ W') T1 T1' (commit_code _ _ _ _ _ W Hs C) (commit_code _ _ _ _ _ W' Hs' C')
    Wv Wv' (commit_input _ _ _ Hs) (commit_input _ _ _ Hs') E) as [B|(<- & <- & Ev & Et & El & I1 & I2 & I3 & A1 & A2 & O1 & O2)]; [now left|right].
  do 3 (split; [auto|]). split; [now split|]. split; [auto|]. split; [exists c; auto|]. split; [auto|]. split.
  - intros ->. apply A2; [reflexivity| |]; discriminate.
  - split; [intros A; apply BU in A as [Q1 Q2]; exact (O1 Q1 Q2)|intros A; exact (O2 (BS A))].
Qed.
Print Assumptions C150_segwit.

(** It does not cover the amounts of other inputs, so not the fee: the weakness of BIP-143 that
    made wallets ask for the whole previous transactions. *)
Definition ec_in (v : N) : input0 := set_i0_witness_utxo (Some (TxOut v (program_script 0 (repeat x11 20)))) input0_default.
Definition ec_psbt (v : N) : psbt0 := ex0_of [ec_in 5000; ec_in v].
Lemma ec_wf v : @psbt0_deserialize real_root (@psbt0_serialize real_root (ec_psbt v)) = Ok (ec_psbt v) -> @wf_psbt0 real_root (ec_psbt v).
Proof. intros H. exact (@deserialize0_wf real_root real_root_laws _ _ H). Qed.
Lemma ec_kind : p2wpkh_hash (program_script 0 (repeat x11 20)) (repeat x11 20).
Proof. split; [|reflexivity]. split; [reflexivity|]. split; [lia|]. split; intros E; discriminate E. Qed.
Lemma ec_sighash (S : SignExt) v t : 0 < blen (tx_input t) ->
  psbt0_sighash_ecdsa (ec_psbt v) 0 t = Ok (segwit_digest t 0 (p2pkh_script (repeat x11 20)) 5000 1, 1).
Proof.
  intros Ht. apply (C33_v0_digest real_root S); [exact Ht|]. eexists (_, ec_in 5000), (TxOut 5000 (program_script 0 (repeat x11 20))).
  split; [reflexivity|]. split; [now left|]. split; [split; [cbn; tauto|right; split; reflexivity]|].
  exact (M0Wpkh _ _ _ _ (TxOut 5000 (program_script 0 (repeat x11 20))) _ _ ec_kind).
Qed.
Theorem C150_segwit_fee_refuted : exists p p' m f f',
  @wf_psbt0 real_root p /\ @wf_psbt0 real_root p'
  /\ @psbt0_sighash_ecdsa real_signer p 0 (p0_unsigned_tx p) = Ok (m, 0x01)
  /\ @psbt0_sighash_ecdsa real_signer p' 0 (p0_unsigned_tx p') = Ok (m, 0x01)
  /\ psbt0_fee p = Ok f /\ psbt0_fee p' = Ok f' /\ f < f'.
Proof.
  exists (ec_psbt 6000), (ec_psbt 1000000). eexists. exists 7000, 1001000.
  split; [apply ec_wf; vm_compute; reflexivity|]. split; [apply ec_wf; vm_compute; reflexivity|].
  assert (E : p0_unsigned_tx (ec_psbt 1000000) = p0_unsigned_tx (ec_psbt 6000)) by reflexivity. rewrite E. clear E.
  assert (0 < blen (tx_input (p0_unsigned_tx (ec_psbt 6000)))) by reflexivity.
  split; [apply ec_sighash; assumption|]. split; [apply ec_sighash; assumption|]. split; [vm_compute; reflexivity|]. split; [vm_compute; reflexivity|]. lia.
Qed.
Print Assumptions C150_segwit_fee_refuted.

(** ** Before segwit *)

Lemma commit_legacy_code `{X : Ext} p n s u c : wf_psbt0 p -> spend_at p n s -> funds0 s u -> legacy_code s u c -> wf_vec c.
Proof.
  intros W Hs Hu H. pose proof (commit_funds p s u W (commit_in _ _ _ Hs) Hu) as [_ Wu]. destruct H as [_|c _ E]; [exact Wu|].
  destruct s as [i m]. apply commit_in, in_combine_r in Hs. pose proof (wp0_inputs _ W) as F. rewrite Forall_forall in F.
  apply F in Hs. pose proof (wi0_redeem _ Hs) as Q. cbn [snd] in E. rewrite E in Q. unfold SpecPsbt.opt_of, wf_value, MAX_VALUE in Q. unfold wf_vec, U64. lia.
Qed.
Lemma commit_legacy_message p n s u ty m : spend_at p n s -> funds0 s u ->
  (exists c, legacy_code s u c) ->
  @message0 real_signer (p0_unsigned_tx p) n (i0_redeem_script (snd s)) (i0_witness_script (snd s)) u ty m ->
  exists c, legacy_code s u c /\ m = real_legacy (p0_unsigned_tx p) n c ty.
Proof.
  intros Hs Hu [c Hc] H.
  assert (N : forall o, output_kind (to_script u) (i0_redeem_script (snd s)) o -> o = Bare \/ o = Sh).
  { intros o Ho. assert (Q : exists o', output_kind (to_script u) (i0_redeem_script (snd s)) o' /\ (o' = Bare \/ o' = Sh)).
    { destruct Hc as [K|c K _]; [exists Bare|exists Sh]; auto. }
    destruct Q as (o' & Ho' & Q). apply kind0_iff with (s := s) in Ho, Ho'. assert (o = o') by congruence. now subst. }
  destruct H as [K|c' K E|h K|c' h K1 K2 K3|h c' K1 K2|q h c' K1 K2 K3 K4].
  - exists (to_script u). split; [now constructor|reflexivity].
  - exists c'. split; [now apply CodeSh|reflexivity].
  - destruct (N Wpkh); [econstructor; eauto|discriminate|discriminate].
  - destruct (N ShWpkh); [econstructor; eauto|discriminate|discriminate].
  - destruct (N Wsh); [econstructor; eauto|discriminate|discriminate].
  - destruct (N ShWsh); [econstructor; eauto|discriminate|discriminate].
Qed.

(** The script stands in the place of the scriptSig, so that its index is covered if it is not
    empty; no amount is covered. *)
Theorem C150_legacy : forall (X : Ext) p n s u c ty p' n' s' u' c' ty' m,
  wf_psbt0 p -> wf_psbt0 p' ->
  spend_at p n s -> funds0 s u -> legacy_code s u c ->
  spend_at p' n' s' -> funds0 s' u' -> legacy_code s' u' c' ->
  (one_output ty -> n < blen (outputs p)) -> (one_output ty' -> n' < blen (outputs p')) ->
  @psbt0_sighash_ecdsa real_signer p n (p0_unsigned_tx p) = Ok (m, ty) ->
  @psbt0_sighash_ecdsa real_signer p' n' (p0_unsigned_tx p') = Ok (m, ty') ->
  collision_found \/
  (ty = ty' /\ tx_version (p0_unsigned_tx p) = tx_version (p0_unsigned_tx p')
   /\ tx_lock_time (p0_unsigned_tx p) = tx_lock_time (p0_unsigned_tx p')
   /\ (one_input ty \/ c <> [] -> same_input (fst s) (fst s') /\ c = c')
   /\ (all_inputs ty -> outpoints p = outpoints p' /\ (c <> [] -> n = n'))
   /\ (ty = 0x01 -> sequences p = sequences p')
   /\ (all_outputs ty -> outputs p = outputs p')
   /\ (one_output ty -> n = n' /\ nth_error (outputs p) (N.to_nat n) = nth_error (outputs p') (N.to_nat n'))).
Proof.
  intros X p n s u c0 ty p' n' s' u' c0' ty' m W W' Hs Hu Hc Hs' Hu' Hc' HS HS' H H'.
  assert (Fun : forall (s : txin * input0) u c c', legacy_code s u c -> legacy_code s u c' -> c = c').
  { clear. intros s u c c' H H'. destruct H as [K|c K E], H' as [K'|c' K' E']; [reflexivity| | |congruence];
      apply kind0_iff with (s := s) in K, K'; congruence. }
  apply (proj1 (C33_v0_digest X real_signer p n _ m ty (proj2 (spend_at_lt _ _ _ Hs)))) in H.
  apply (proj1 (C33_v0_digest X real_signer p' n' _ m ty' (proj2 (spend_at_lt _ _ _ Hs')))) in H'.
  destruct H as (s1 & u1 & K1 & K2 & [Ty _] & M), H' as (s2 & u2 & K3 & K4 & [Ty' _] & M').
  assert (s1 = s) by (unfold spend_at in *; congruence). assert (s2 = s') by (unfold spend_at in *; congruence). subst s1 s2.
  rewrite (funds0_fun _ _ _ K2 Hu) in M. rewrite (funds0_fun _ _ _ K4 Hu') in M'. clear K1 K2 K3 K4 u1 u2.
  apply commit_legacy_message in M as (c & C & ->); eauto. apply commit_legacy_message in M' as (c' & C' & E); eauto.
  rewrite (Fun _ _ _ _ Hc C), (Fun _ _ _ _ Hc' C'). clear Hc Hc' c0 c0' Fun.
  assert (S3 : forall ty, In ty [0x01; 0x02; 0x03; 0x81; 0x82; 0x83] -> base_type ty = 3 -> one_output ty).
  { clear. intros ty H. unfold one_output. cbn [In] in *. decompose [or] H; subst; try contradiction; cbn; intros; try discriminate; tauto. }
  assert (O1 : one_input ty -> anyone ty = true).
  { clear. unfold one_input. cbn [In]. intros H. decompose [or] H; subst; try contradiction; reflexivity. }
  destruct (commit_ecdsa_bits ty Ty) as (T1 & BA & BU & BS). destruct (commit_ecdsa_bits ty' Ty') as (T1' & _).
  destruct (legacy_inj _ _ (fst s) _ _ _ _ (fst s') _ _ (wp0_tx _ W) (wp0_tx _ W') T1 T1' (commit_legacy_code _ _ _ _ _ W Hs Hu C)
    (commit_legacy_code _ _ _ _ _ W' Hs' Hu' C') (commit_input _ _ _ Hs) (commit_input _ _ _ Hs') (fun E => HS (S3 _ Ty E)) (fun E => HS' (S3 _ Ty' E)) E)
    as [B|(<- & Ev & El & A1 & A2 & A3 & I & Q1 & Q2)]; [now left|right].
  do 3 (split; [auto|]). split; [|split; [|split; [|split]]].
  - intros K. destruct I as (I1 & I2 & I3 & I4); [destruct K; auto|]. split; [split; auto|exact I4].
  - intros A. apply BA in A. split; [exact (A1 A)|exact (A3 A)].
  - intros ->. apply A2; [reflexivity| |]; discriminate.
  - intros A. apply BU in A as [Z1 Z2]. exact (Q1 Z1 Z2).
  - intros A. exact (Q2 (BS A)).
Qed.
Print Assumptions C150_legacy.

(** The amount of the input itself is not covered. *)
Definition el_psbt (v : N) : psbt0 := ex0_of [set_i0_witness_utxo (Some (TxOut v (p2pkh_script (repeat x11 20)))) input0_default].
Lemma el_wf v : @psbt0_deserialize real_root (@psbt0_serialize real_root (el_psbt v)) = Ok (el_psbt v) -> @wf_psbt0 real_root (el_psbt v).
Proof. intros H. exact (@deserialize0_wf real_root real_root_laws _ _ H). Qed.
Lemma el_sighash (S : SignExt) v t : 0 < blen (tx_input t) ->
  psbt0_sighash_ecdsa (el_psbt v) 0 t = Ok (legacy_digest t 0 (p2pkh_script (repeat x11 20)) 1, 1).
Proof.
  intros Ht. apply (C33_v0_digest real_root S); [exact Ht|].
  eexists (_, _), (TxOut v (p2pkh_script (repeat x11 20))).
  split; [reflexivity|]. split; [now left|]. split; [split; [cbn; tauto|right; split; reflexivity]|].
  apply (M0Bare _ _ _ _ (TxOut v (p2pkh_script (repeat x11 20)))). apply (kind0_iff (TxIn [] 0 [] 0 [], input0_default)). reflexivity.
Qed.
Theorem C150_legacy_amount_refuted : exists p p' m f f',
  @wf_psbt0 real_root p /\ @wf_psbt0 real_root p' /\ length (p0_inputs p) = 1%nat /\ length (p0_inputs p') = 1%nat
  /\ @psbt0_sighash_ecdsa real_signer p 0 (p0_unsigned_tx p) = Ok (m, 0x01)
  /\ @psbt0_sighash_ecdsa real_signer p' 0 (p0_unsigned_tx p') = Ok (m, 0x01)
  /\ psbt0_fee p = Ok f /\ psbt0_fee p' = Ok f' /\ f < f'.
Proof.
  exists (el_psbt 6000), (el_psbt 1000000). eexists. exists 2000, 996000.
  split; [apply el_wf; vm_compute; reflexivity|]. split; [apply el_wf; vm_compute; reflexivity|]. split; [reflexivity|]. split; [reflexivity|].
  assert (E : p0_unsigned_tx (el_psbt 1000000) = p0_unsigned_tx (el_psbt 6000)) by reflexivity. rewrite E. clear E.
  assert (0 < blen (tx_input (p0_unsigned_tx (el_psbt 6000)))) by reflexivity.
  split; [apply el_sighash; assumption|]. split; [apply el_sighash; assumption|]. split; [vm_compute; reflexivity|]. split; [vm_compute; reflexivity|]. lia.
Qed.
Print Assumptions C150_legacy_amount_refuted.

(** SINGLE for an input without an output of the same index: the message that is signed is the
    number 1, for every transaction, so such a signature lets anyone spend all that is sent to the
    key.  The code signs it. *)
Definition el_single (o : txout) : psbt0 :=
  let i := set_i0_sighash_type (Some 0x03) (set_i0_witness_utxo (Some (TxOut 5000 (p2pkh_script (repeat x11 20)))) input0_default) in
  Psbt0 (Tx 2 0 [TxIn txid_a 0 [] 4294967295 []; TxIn txid_a 1 [] 4294967295 []] [o]) 0 [] [] [] [i; i] [output0_default].
Theorem C150_legacy_single_refuted : exists p p' m,
  @wf_psbt0 real_root p /\ @wf_psbt0 real_root p' /\ outputs p <> outputs p'
  /\ @psbt0_sighash_ecdsa real_signer p 1 (p0_unsigned_tx p) = Ok (m, 0x03)
  /\ @psbt0_sighash_ecdsa real_signer p' 1 (p0_unsigned_tx p') = Ok (m, 0x03).
Proof.
  exists (el_single (TxOut 4000 [x51])), (el_single (TxOut 1 [x52])), (x01 :: repeat x00 31).
  split; [apply (@deserialize0_wf real_root real_root_laws (@psbt0_serialize real_root (el_single (TxOut 4000 [x51])))); vm_compute; reflexivity|].
  split; [apply (@deserialize0_wf real_root real_root_laws (@psbt0_serialize real_root (el_single (TxOut 1 [x52])))); vm_compute; reflexivity|].
  split; [discriminate|]. split; vm_compute; reflexivity.
Qed.
Print Assumptions C150_legacy_single_refuted.

(** Two PSBTs that differ in what is not signed, with a message in common; for another
    transaction the message differs. *)
Definition et_in (v : N) (o : option bytes) : input0 :=
  set_i0_redeem_script o (set_i0_witness_utxo (Some (TxOut v (program_script 1 (repeat x22 32)))) input0_default).
Definition et_psbt (o : option bytes) : psbt0 := ex0_of [et_in 5000 None; et_in 6000 o].
Lemma et_sighash (T : SchnorrExt) o : psbt0_sighash_taproot (et_psbt o) 0 (p0_unsigned_tx (et_psbt None)) (Some (repeat x33 32))
  = Ok (taproot_digest (p0_unsigned_tx (et_psbt None)) 0
          (PrevoutsAll [TxOut 5000 (program_script 1 (repeat x22 32)); TxOut 6000 (program_script 1 (repeat x22 32))]) (Some (repeat x33 32)) 0, 0).
Proof. destruct o; vm_compute; reflexivity. Qed.
Example C150_case : forall T,
  let p := et_psbt None in let p' := et_psbt (Some [x51]) in
  @wf_psbt0 real_root p /\ @wf_psbt0 real_root p' /\ vouts_in_bounds p /\ vouts_in_bounds p' /\ p <> p' /\ psbt0_fee p = Ok 7000
  /\ (exists m, @psbt0_sighash_taproot (with_bip341 T) p 0 (p0_unsigned_tx p) (Some (repeat x33 32)) = Ok (m, 0)
        /\ @psbt0_sighash_taproot (with_bip341 T) p' 0 (p0_unsigned_tx p') (Some (repeat x33 32)) = Ok (m, 0))
  /\ (exists s u, spend_at (ec_psbt 6000) 0 s /\ funds0 s u /\ exists c, script_code s u c)
  /\ (exists s u, spend_at (el_psbt 6000) 0 s /\ funds0 s u /\ legacy_code s u (p2pkh_script (repeat x11 20))).
Proof.
  intros T. cbv zeta. split; [apply (@deserialize0_wf real_root real_root_laws (@psbt0_serialize real_root (et_psbt None))); vm_compute; reflexivity|].
  split; [apply (@deserialize0_wf real_root real_root_laws (@psbt0_serialize real_root (et_psbt (Some [x51])))); vm_compute; reflexivity|].
  split; [repeat constructor; intros [H _]; discriminate H|]. split; [repeat constructor; intros [H _]; discriminate H|].
  split; [discriminate|]. split; [vm_compute; reflexivity|]. split; [|split].
  - assert (E : p0_unsigned_tx (et_psbt (Some [x51])) = p0_unsigned_tx (et_psbt None)) by reflexivity. rewrite E. clear E.
    eexists. split; apply et_sighash.
  - eexists (_, ec_in 5000), _. split; [reflexivity|]. split; [left; reflexivity|]. exists (p2pkh_script (repeat x11 20)). apply CodeWpkh, ec_kind.
  - eexists (_, _), (TxOut 6000 (p2pkh_script (repeat x11 20))). split; [reflexivity|]. split; [left; reflexivity|].
    apply (CodeBare _ (TxOut 6000 (p2pkh_script (repeat x11 20)))). apply (kind0_iff (TxIn [] 0 [] 0 [], input0_default)). reflexivity.
Qed.
