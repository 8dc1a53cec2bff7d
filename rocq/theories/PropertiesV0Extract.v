(** C47, C48 (fee, extraction, combining), C79, C80: fee and extraction of v0 PSBTs
    (src/v0/bitcoin/mod.rs:77-89, 138-219, 715-725). *)
From Verif Require Import Base OMap Consensus ConsensusFacts Ext ExtInstance Raw TapTree Serialize SerializeFacts MapCodec
  V2Global V2Psbt V2Roles SpecCodec SpecPsbt SpecRoles V2RolesFacts SampleV2 PropertiesV2Combine
  V0Error V0Input V0Output V0Psbt SpecPsbt0 V0WireFacts SampleV0 SpecCombine SpecCombine0 V0CombineFacts PropertiesV0Combine SpecExtract0 V0ExtractFacts.
Local Open Scope N_scope.

#[local] Existing Instance toy | 100.

(** ** C47: extraction *)

Theorem C47_extracted : forall p, extracted0 p (extract0_unchecked p).
Proof. exact extract0_spec. Qed.
Print Assumptions C47_extracted.

(** The specification leaves no choice. *)
Theorem C47_extracted_only : forall p t, one_map_per_input p -> extracted0 p t -> t = extract0_unchecked p.
Proof. intros p t H Ht. exact (extracted0_unique p t _ H Ht (extract0_spec p)). Qed.
Print Assumptions C47_extracted_only.

(** Without the signatures it is the unsigned transaction. *)
Theorem C47_unsigned_kept : forall (X : Ext) p, wf_psbt0 p -> strip_signatures (extract0_unchecked p) = p0_unsigned_tx p.
Proof. intros X p H. apply strip_extract0, H. Qed.
Print Assumptions C47_unsigned_kept.

(** The variants with a limit return that transaction, and their errors contain it or the PSBT. *)
Theorem C47_limit_same : forall m p,
  match extract0_with_fee_rate_limit m p with
  | Ok t => extracted0 p t
  | Err (X0AbsurdFeeRate _ t) => extracted0 p t
  | Err (X0MissingInputValue t) => extracted0 p t
  | Err (X0SendingTooMuch q) => q = p
  | Panic => True
  end.
Proof.
  intros m p. unfold extract0_with_fee_rate_limit. cbv zeta. pose proof (extract0_spec p) as H.
  destruct (psbt0_fee p) as [f|e|]; auto.
  - destruct (_ <? _); exact H.
  - destruct e; auto.
Qed.
Print Assumptions C47_limit_same.

Example C47_example : wf_psbt0 sample0 /\ one_map_per_input sample0
  /\ map ti_script_sig (tx_input (extract0_unchecked sample0)) = [[]; [x51; x52]]
  /\ map (fun t => length (ti_witness t)) (tx_input (extract0_unchecked sample0)) = [0%nat; 1%nat]
  /\ extract0_tx sample0 = Ok (extract0_unchecked sample0).
Proof.
  split; [exact (@deserialize0_wf toy toy_laws _ _ sample0_decodes)|]. vm_compute. auto 6.
Qed.

(** ** C79: the fee *)

Theorem C79_fee_ok : forall p f, psbt0_fee p = Ok f <->
  one_map_per_input p /\ exists vs, funded0 (spends p) vs /\ total vs < 2 ^ 64 /\ total (pays0 p) < 2 ^ 64
    /\ total vs = total (pays0 p) + f.
Proof.
  intros p f. pose proof (psbt0_fee_spec p) as H. split; [intros E; rewrite E in H; exact H|].
  intros (El & vs & Hf & H1 & H2 & H3).
  assert (Q : forall P, first_input0 P p -> exists n s u, P n s /\ funds0 s u /\ n + to_value u <= total vs).
  { intros P (l1 & s & l2 & ws & Hl & Hg & Ht & HP). rewrite Hl in Hf. apply Forall2_app_inv_l in Hf as (w1 & w2 & F1 & F2 & ->).
    pose proof (funded0_unique _ _ _ F1 Hg) as ->. inversion F2 as [|? ? ? ? (u & Hu & Hv)]; subst.
    exists (total ws), s, u. repeat split; auto. rewrite total_app, total_cons. lia. }
  destruct (psbt0_fee p) as [g|e|]; [| |tauto].
  - destruct H as (_ & ws & Hw & _ & _ & Hg). pose proof (funded0_unique _ _ _ Hf Hw) as <-. f_equal. lia.
  - exfalso. destruct e; try tauto; destruct H as (_ & H).
    + apply Q in H as (n & s & u & Hs & Hu & _). now apply (no_utxo_no_funds s u).
    + apply Q in H as (n & s & u & Hs & Hu & _). now apply (oob_no_funds s u).
    + destruct H as (ws & Hw & _ & _ & Hg). pose proof (funded0_unique _ _ _ Hf Hw) as <-. lia.
    + destruct H as [H|(ws & Hw & _ & Hg)]; [|lia]. apply Q in H as (n & s & u & (u' & Hu' & Hle) & Hu & Hlt).
      pose proof (proj2 (item0_ok s _) (ex_intro _ u (conj Hu eq_refl))).
      pose proof (proj2 (item0_ok s _) (ex_intro _ u' (conj Hu' eq_refl))). assert (to_value u = to_value u') by congruence. lia.
Qed.
Print Assumptions C79_fee_ok.

(** The error names the first cause; inputs are looked at in order, before the outputs. *)
Theorem C79_fee_error : forall p,
  match psbt0_fee p with
  | Ok _ => True
  | Err E0MissingUtxo => first_input0 (fun _ => no_utxo) p
  | Err E0PsbtUtxoOutOfbounds => first_input0 (fun _ => vout_out_of_bounds) p
  | Err E0FeeOverflow =>
      first_input0 (fun n s => exists u, funds0 s u /\ 2 ^ 64 <= n + to_value u) p
      \/ exists vs, funded0 (spends p) vs /\ total vs < 2 ^ 64 /\ 2 ^ 64 <= total (pays0 p)
  | Err E0NegativeFee => exists vs, funded0 (spends p) vs /\ total vs < 2 ^ 64 /\ total (pays0 p) < 2 ^ 64 /\ total vs < total (pays0 p)
  | Err _ => False
  | Panic => ~ one_map_per_input p
  end.
Proof.
  intros p. pose proof (psbt0_fee_spec p) as H. destruct (psbt0_fee p) as [f|e|]; auto. destruct e; tauto.
Qed.
Print Assumptions C79_fee_error.

Definition cx0_utxo (v : N) : list pair := [pr x01 [] (le_enc 8 v ++ [x16] ++ p2wpkh_a)].
Example C79_example : psbt0_fee sample0 = Ok 2000 /\ one_map_per_input sample0
  /\ psbt0_fee (cx0 [] (cx0_utxo 3999) []) = Err E0NegativeFee
  /\ psbt0_fee (cx0 [] [] []) = Err E0MissingUtxo
  /\ psbt0_fee (cx0 [] [pr x00 [] (enc_tx prev0)] []) = Err E0PsbtUtxoOutOfbounds.
Proof. vm_compute. auto 6. Qed.

(** ** C80: the fee rate limit *)

Theorem C80_limit : forall m p fee, psbt0_fee p = Ok fee -> fee * 1000 < 2 ^ 64 ->
  let t := extract0_unchecked p in
  (extract0_with_fee_rate_limit m p = Ok t <-> fee * 1000 / tx_weight t <= m) /\
  (forall r t', extract0_with_fee_rate_limit m p = Err (X0AbsurdFeeRate r t')
     <-> m < fee * 1000 / tx_weight t /\ r = fee * 1000 / tx_weight t /\ t' = t) /\
  (extract0_with_fee_rate_limit m p = Ok t -> fee * 1000 < (m + 1) * tx_weight t).
Proof.
  intros m p fee Hf Hb t. unfold extract0_with_fee_rate_limit. rewrite Hf. fold t. cbv zeta. unfold saturating_mul.
  replace (N.min (fee * 1000) (U64 - 1)) with (fee * 1000) by (change (2 ^ 64) with U64 in Hb; lia).
  pose proof (tx_weight_pos t) as Hw. destruct (N.ltb_spec m (fee * 1000 / tx_weight t)) as [H|H].
  - split; [|split].
    + split; [discriminate|lia].
    + intros r t'. split; [intros [= <- <-]; auto|]. intros (_ & -> & ->). reflexivity.
    + discriminate.
  - split; [|split].
    + split; auto.
    + intros r t'. split; [discriminate|lia].
    + intros _. pose proof (N.mul_succ_div_gt (fee * 1000) (tx_weight t)). nia.
Qed.
Print Assumptions C80_limit.

(** A transaction is returned only when the fee can be computed; the default limit is
    25000 sat/vB, one vbyte is four weight units. *)
Theorem C80_default_limit : forall p t, extract0_tx p = Ok t ->
  exists fee, psbt0_fee p = Ok fee /\ (fee * 1000 < 2 ^ 64 -> fee * 1000 < (25000 * 1000 / 4 + 1) * tx_weight t).
Proof.
  intros p t H. destruct (psbt0_fee p) as [fee|e|] eqn:Hf.
  - exists fee. split; auto. intros Hb. destruct (C80_limit DEFAULT_MAX_FEE_RATE p fee Hf Hb) as (H1 & H2 & H3).
    unfold extract0_tx in H. assert (t = extract0_unchecked p) as ->.
    { unfold extract0_with_fee_rate_limit in H. rewrite Hf in H. cbv zeta in H. destruct (_ <? _); [discriminate|congruence]. }
    exact (H3 H).
  - exfalso. unfold extract0_tx, extract0_with_fee_rate_limit in H. rewrite Hf in H. destruct e; discriminate.
  - exfalso. unfold extract0_tx, extract0_with_fee_rate_limit in H. rewrite Hf in H. discriminate.
Qed.
Print Assumptions C80_default_limit.

(** Which error is reported when there is no fee. *)
Theorem C80_errors : forall m p,
  (forall t, extract0_with_fee_rate_limit m p = Err (X0MissingInputValue t) <->
     psbt0_fee p = Err E0MissingUtxo /\ t = extract0_unchecked p) /\
  (forall q, extract0_with_fee_rate_limit m p = Err (X0SendingTooMuch q) <-> psbt0_fee p = Err E0NegativeFee /\ q = p) /\
  (psbt0_fee p = Err E0FeeOverflow -> extract0_with_fee_rate_limit m p = Err (X0AbsurdFeeRate (2 ^ 64 - 1) (extract0_unchecked p))).
Proof.
  intros m p. unfold extract0_with_fee_rate_limit. cbv zeta. destruct (psbt0_fee p) as [fee|e|].
  - destruct (_ <? _); (split; [|split]); try discriminate; intros; (split; [discriminate|intros [Q _]; discriminate Q]).
  - destruct e; (split; [|split]); try discriminate; try reflexivity;
      intros; (split; [try discriminate|]); try (intros [Q _]; discriminate Q); try (intros [_ ->]; reflexivity); intros Q; injection Q as <-; auto.
  - split; [|split]; try discriminate; intros; (split; [discriminate|intros [Q _]; discriminate Q]).
Qed.
Print Assumptions C80_errors.

(** Without the bound on the fee the claim is false: the rate saturates. *)
Theorem C80_saturation_refuted : exists m p fee t, @wf_psbt0 toy p /\ psbt0_fee p = Ok fee /\ m < 2 ^ 64
  /\ extract0_with_fee_rate_limit m p = Ok t /\ m < fee * 1000 / tx_weight t.
Proof.
  exists (2 ^ 64 - 1), (cx0 [] (cx0_utxo (2 ^ 64 - 1)) []), (2 ^ 64 - 1 - 4000), (extract0_unchecked (cx0 [] (cx0_utxo (2 ^ 64 - 1)) [])).
  split; [apply cx0_wf; vm_compute; reflexivity|]. vm_compute. auto.
Qed.
Print Assumptions C80_saturation_refuted.

Example C80_example : let p := cx0 [] (cx0_utxo 1000004000) [] in
  psbt0_fee p = Ok 1000000000
  /\ extract0_tx p = Err (X0AbsurdFeeRate 3048780487 cx0_tx)
  /\ is_ok (extract0_with_fee_rate_limit 3048780487 p) = true /\ is_ok (extract0_with_fee_rate_limit 3048780486 p) = false.
Proof. vm_compute. auto. Qed.

(** ** C48: panics *)

Theorem C48_fee : forall (X : Ext) (L : ExtLaws X) bs p, psbt0_deserialize bs = Ok p -> psbt0_fee p <> Panic.
Proof.
  intros X L bs p H E. apply deserialize0_wf in H. pose proof (psbt0_fee_spec p) as Q. rewrite E in Q. apply Q, H.
Qed.
Print Assumptions C48_fee.

(** Extracting panics (unreachable!() in line 203) when a previous transaction has too few outputs. *)
Theorem C48_extract_refuted : exists bs p, @psbt0_deserialize toy bs = Ok p /\ extract0_tx p = Panic.
Proof.
  exists (cx0_bytes [] [pr x00 [] (enc_tx prev0)] []), (cx0 [] [pr x00 [] (enc_tx prev0)] []). vm_compute. auto.
Qed.
Print Assumptions C48_extract_refuted.

Theorem C48_extract_panic_iff : forall (X : Ext) (L : ExtLaws X) bs p m, psbt0_deserialize bs = Ok p ->
  extract0_with_fee_rate_limit m p = Panic <-> first_input0 (fun _ => vout_out_of_bounds) p.
Proof.
  intros X L bs p m H. apply deserialize0_wf in H. pose proof (wp0_input_count _ H) as El. unfold extract0_with_fee_rate_limit. cbv zeta.
  split.
  - intros Q. pose proof (psbt0_fee_spec p) as S. destruct (psbt0_fee p) as [f|e|].
    + destruct (_ <? _); discriminate.
    + destruct e; try tauto; discriminate.
    + now destruct S.
  - intros Q. now rewrite (first_out_of_bounds p Q El).
Qed.
Print Assumptions C48_extract_panic_iff.

(** Combining two decoded PSBTs can panic, see C38_v0_panic_iff for when. *)
Theorem C48_combine_refuted : exists bs bs' p q, @psbt0_deserialize toy bs = Ok p /\ @psbt0_deserialize toy bs' = Ok q
  /\ psbt0_combine p q = Panic.
Proof.
  exists (cx0_bytes [xpub_pair x05 [1; 2]] [] []), (cx0_bytes [xpub_pair x05 [3]] [] []),
    (cx0 [xpub_pair x05 [1; 2]] [] []), (cx0 [xpub_pair x05 [3]] [] []). vm_compute. auto.
Qed.
Print Assumptions C48_combine_refuted.

Example C48_example : psbt0_deserialize sample0_bytes = Ok sample0 /\ psbt0_fee sample0 = Ok 2000.
Proof. split; [exact sample0_decodes|]. vm_compute. reflexivity. Qed.
