(** Facts about the model of v0 signing (V0Sign.v). *)
From Coq Require Import Sorted.
From Verif Require Import Base OMap Consensus Ext Raw TapTree Serialize SerializeFacts MapCodec V2Global V2Input V2Psbt V2Roles V2RolesFacts
  Script SighashType V2Sign SpecSign V2SignFacts V0Error V0Input V0Output V0Psbt SpecExtract0 V0ExtractFacts V0Sign SpecSign0.
Local Open Scope N_scope.

(** ** What is looked at to sign an input *)

Lemma spends_nth p n t i :
  nth_error (spends p) n = Some (t, i) <-> nth_error (tx_input (p0_unsigned_tx p)) n = Some t /\ nth_error (p0_inputs p) n = Some i.
Proof.
  unfold spends. revert n. generalize (p0_inputs p). induction (tx_input (p0_unsigned_tx p)) as [|a l IH]; intros l' n; cbn [combine].
  - destruct n; cbn; split; [discriminate|intros [H _]; discriminate|discriminate|intros [H _]; discriminate].
  - destruct l' as [|b l']; cbn [combine].
    + destruct n; cbn; split; try discriminate; intros [_ H]; discriminate.
    + destruct n as [|n]; cbn [nth_error]; [|apply IH]. split; [intros [= -> ->]; auto|intros [[= ->] [= ->]]; auto].
Qed.
Lemma spend_at_iff p n t i :
  spend_at p n (t, i) <-> nth_error (tx_input (p0_unsigned_tx p)) (N.to_nat n) = Some t /\ nth_error (p0_inputs p) (N.to_nat n) = Some i.
Proof. apply spends_nth. Qed.
Lemma spend_at_fun p n s s' : spend_at p n s -> spend_at p n s' -> s = s'.
Proof. unfold spend_at. congruence. Qed.
Lemma spend_at_lt p n s : spend_at p n s -> n < blen (p0_inputs p) /\ n < blen (tx_input (p0_unsigned_tx p)).
Proof.
  destruct s as [t i]. intros H. apply spend_at_iff in H as [H1 H2].
  assert (Ha : nth_error (tx_input (p0_unsigned_tx p)) (N.to_nat n) <> None) by congruence.
  assert (Hb : nth_error (p0_inputs p) (N.to_nat n) <> None) by congruence.
  apply nth_error_Some in Ha, Hb. unfold blen. lia.
Qed.
Lemma spend_at_ex p n : n < blen (p0_inputs p) -> n < blen (tx_input (p0_unsigned_tx p)) -> exists s, spend_at p n s.
Proof.
  intros H1 H2. unfold blen in *.
  destruct (nth_error (tx_input (p0_unsigned_tx p)) (N.to_nat n)) as [t|] eqn:E1; [|apply nth_error_None in E1; lia].
  destruct (nth_error (p0_inputs p) (N.to_nat n)) as [i|] eqn:E2; [|apply nth_error_None in E2; lia].
  exists (t, i). now apply spend_at_iff.
Qed.
Lemma spend_at_in p s : In s (spends p) <-> exists n, spend_at p n s.
Proof.
  unfold spend_at. split.
  - intros H. apply In_nth_error in H as [n H]. exists (N.of_nat n). now rewrite Nnat.Nat2N.id.
  - intros [n H]. now apply nth_error_In in H.
Qed.
Lemma funds0_fun s u v : funds0 s u -> funds0 s v -> u = v.
Proof. intros [H|(H & t & Ht & Hn)] [H'|(H' & t' & Ht' & Hn')]; congruence. Qed.

(** The three things that can be found. *)
Lemma funds0_cases s : (exists u, funds0 s u) \/ no_utxo s \/ vout_out_of_bounds s.
Proof.
  pose proof (funding0_spec s) as H. destruct (input0_funding_utxo (fst s) (snd s)) as [u|[]|]; try contradiction; auto.
  left. exists u. now apply H.
Qed.
Lemma oob_not_none s : vout_out_of_bounds s -> ~ no_utxo s.
Proof. intros (_ & t & H & _) [_ H']. congruence. Qed.

Definition slot0 (p : psbt0) (n : N) : res signerr0 ((txin * input0) * txout) :=
  i <- map_err S0IndexOutOfBounds (checked_input0 p n) ;;
  u <- spend_utxo p n ;;
  t <- expect (nth_N (tx_input (p0_unsigned_tx p)) n) ;;
  Ok ((t, i), u).
Lemma checked0_cases p n :
  checked_input0 p n =
    if blen (p0_inputs p) <=? n then Err (Idx0Inputs n (blen (p0_inputs p)))
    else if blen (tx_input (p0_unsigned_tx p)) <=? n then Err (Idx0TxInput n (blen (tx_input (p0_unsigned_tx p))))
    else match nth_error (p0_inputs p) (N.to_nat n) with Some i => Ok i | None => Panic end.
Proof.
  unfold checked_input0, check_index0, fail_if. destruct (_ <=? n); [reflexivity|]. destruct (_ <=? n); [reflexivity|].
  cbn [bind]. now rewrite nth_N_nth.
Qed.
Lemma checked0_at p n t i : spend_at p n (t, i) -> checked_input0 p n = Ok i.
Proof.
  intros H. pose proof (spend_at_lt p n _ H) as [H1 H2]. apply spend_at_iff in H as [_ H]. rewrite checked0_cases.
  replace (blen (p0_inputs p) <=? n) with false by lia. replace (blen (tx_input (p0_unsigned_tx p)) <=? n) with false by lia. now rewrite H.
Qed.
Lemma spend_utxo_at p n t i : spend_at p n (t, i) ->
  spend_utxo p n =
  match i0_witness_utxo i, i0_non_witness_utxo i with
  | Some u, _ => Ok u
  | None, Some prev => expect (nth_error (tx_output prev) (N.to_nat (ti_vout t)))
  | None, None => Err S0MissingSpendUtxo
  end.
Proof.
  intros H. unfold spend_utxo. rewrite (checked0_at p n t i H). cbn [map_err bind].
  destruct (i0_witness_utxo i); [reflexivity|]. destruct (i0_non_witness_utxo i) as [prev|]; [|reflexivity].
  apply spend_at_iff in H as [H _]. rewrite nth_N_nth, H. cbn [expect bind]. now rewrite nth_N_nth.
Qed.
Lemma spend_utxo_funds p n s : spend_at p n s ->
  match spend_utxo p n with
  | Ok u => funds0 s u
  | Err e => e = S0MissingSpendUtxo /\ no_utxo s
  | Panic => vout_out_of_bounds s
  end.
Proof.
  destruct s as [t i]. intros H. rewrite (spend_utxo_at p n t i H). unfold funds0, no_utxo, vout_out_of_bounds. cbn [fst snd].
  destruct (i0_witness_utxo i) as [w|]; [now left|]. destruct (i0_non_witness_utxo i) as [prev|]; [|auto].
  destruct (nth_error (tx_output prev) (N.to_nat (ti_vout t))) as [u|] eqn:E; cbn [expect].
  - right. eauto.
  - split; [reflexivity|]. exists prev. split; [reflexivity|]. apply nth_error_None in E. lia.
Qed.
Lemma spend_utxo_ok p n s u : spend_at p n s -> (spend_utxo p n = Ok u <-> funds0 s u).
Proof.
  intros H. pose proof (spend_utxo_funds p n s H) as Hf. destruct (spend_utxo p n) as [v|e|].
  - split; [intros E; inj E; assumption|]. intros Hu. now rewrite (funds0_fun s u v Hu Hf).
  - destruct Hf as [_ Hf]. split; [discriminate|]. intros Hu. now apply (no_utxo_no_funds s u) in Hf.
  - split; [discriminate|]. intros Hu. now apply (oob_no_funds s u) in Hf.
Qed.
(** There is no such input. *)
Lemma no_spend p n : (forall s, ~ spend_at p n s) -> exists e, checked_input0 p n = Err e /\ spend_utxo p n = Err (S0IndexOutOfBounds e).
Proof.
  intros H. assert (Hn : blen (p0_inputs p) <= n \/ blen (tx_input (p0_unsigned_tx p)) <= n).
  { destruct (N.le_gt_cases (blen (p0_inputs p)) n) as [|H1]; [now left|].
    destruct (N.le_gt_cases (blen (tx_input (p0_unsigned_tx p))) n) as [|H2]; [now right|].
    destruct (spend_at_ex p n H1 H2) as [s Hs]. now apply H in Hs. }
  unfold spend_utxo. rewrite checked0_cases. destruct (blen (p0_inputs p) <=? n) eqn:E1; [eexists; split; reflexivity|].
  replace (blen (tx_input (p0_unsigned_tx p)) <=? n) with true by lia. eexists; split; reflexivity.
Qed.
Lemma spend_at_dec p n : (exists s, spend_at p n s) \/ forall s, ~ spend_at p n s.
Proof. unfold spend_at. destruct (nth_error (spends p) (N.to_nat n)); [left; eauto|right; discriminate]. Qed.

Lemma slot0_spec p n :
  match slot0 p n with
  | Ok (s, u) => spend_at p n s /\ funds0 s u
  | Err S0MissingSpendUtxo => exists s, spend_at p n s /\ no_utxo s
  | Err (S0IndexOutOfBounds e) => (forall s, ~ spend_at p n s) /\ checked_input0 p n = Err e
  | Err _ => False
  | Panic => exists s, spend_at p n s /\ vout_out_of_bounds s
  end.
Proof.
  destruct (spend_at_dec p n) as [[[t i] Hs]|Hno].
  - unfold slot0. rewrite (checked0_at p n t i Hs). cbn [map_err bind].
    pose proof (spend_utxo_funds p n _ Hs) as Hf. destruct (spend_utxo p n) as [u|e|]; cbn [bind].
    + pose proof Hs as Hs'. apply spend_at_iff in Hs' as [Ht _]. rewrite nth_N_nth, Ht. cbn [expect bind]. auto.
    + destruct Hf as [-> Hf]. eauto.
    + eauto.
  - destruct (no_spend p n Hno) as (e & He & _). unfold slot0. rewrite He. cbn [map_err bind]. auto.
Qed.
Lemma slot0_ok p n s u : slot0 p n = Ok (s, u) <-> spend_at p n s /\ funds0 s u.
Proof.
  pose proof (slot0_spec p n) as H. split; [intros E; now rewrite E in H|]. intros [H1 H2].
  destruct (slot0 p n) as [[s' u']|e|].
  - destruct H as [H3 H4]. rewrite (spend_at_fun _ _ _ _ H3 H1) in *. now rewrite (funds0_fun _ _ _ H4 H2).
  - exfalso. destruct e; try contradiction.
    + destruct H as [H _]. now apply H in H1.
    + destruct H as (s' & H3 & H4). rewrite (spend_at_fun _ _ _ _ H3 H1) in *. now apply (no_utxo_no_funds s u) in H4.
  - exfalso. destruct H as (s' & H3 & H4). rewrite (spend_at_fun _ _ _ _ H3 H1) in *. now apply (oob_no_funds s u) in H4.
Qed.
Lemma slot0_panic p n : slot0 p n = Panic <-> exists s, spend_at p n s /\ vout_out_of_bounds s.
Proof.
  pose proof (slot0_spec p n) as H. split; [intros E; now rewrite E in H|]. intros (s & H1 & H2).
  destruct (slot0 p n) as [[s' u']|e|]; [| |reflexivity]; exfalso.
  - destruct H as [H3 H4]. rewrite (spend_at_fun _ _ _ _ H3 H1) in *. now apply (oob_no_funds s u') in H2.
  - destruct e; try contradiction.
    + destruct H as [H _]. now apply H in H1.
    + destruct H as (s' & H3 & H4). rewrite (spend_at_fun _ _ _ _ H3 H1) in *. now apply oob_not_none in H2.
Qed.
Lemma slot0_missing p n : slot0 p n = Err S0MissingSpendUtxo <-> exists s, spend_at p n s /\ no_utxo s.
Proof.
  pose proof (slot0_spec p n) as H. split; [intros E; now rewrite E in H|]. intros (s & H1 & H2).
  destruct (slot0 p n) as [[s' u']|e|].
  - exfalso. destruct H as [H3 H4]. rewrite (spend_at_fun _ _ _ _ H3 H1) in *. now apply (no_utxo_no_funds s u') in H2.
  - destruct e; try contradiction; [|reflexivity]. destruct H as [H _]. now apply H in H1.
  - exfalso. destruct H as (s' & H3 & H4). rewrite (spend_at_fun _ _ _ _ H3 H1) in *. now apply oob_not_none in H4.
Qed.

(** ** Output types *)

Definition kind0 (x : (txin * input0) * txout) : option outtype := kind_of (to_script (snd x)) (i0_redeem_script (snd (fst x))).
Lemma output_type0_slot p n : psbt0_output_type p n = x <- slot0 p n ;; ok_or (kind0 x) S0UnknownOutputType.
Proof.
  destruct (spend_at_dec p n) as [[[t i] Hs]|Hno].
  - unfold psbt0_output_type, slot0. rewrite (checked0_at p n t i Hs). cbn [map_err bind].
    destruct (spend_utxo p n) as [u| |]; cbn [bind]; auto. pose proof Hs as Hs'. apply spend_at_iff in Hs' as [Ht _].
    rewrite nth_N_nth, Ht. cbn [expect bind]. unfold kind0, kind_of. cbn [fst snd].
    destruct (negb _); auto. destruct (is_p2wpkh (to_script u)); auto. destruct (is_p2wsh (to_script u)); auto.
    destruct (is_p2sh _); [|destruct (is_p2tr _); auto]. destruct (i0_redeem_script i) as [r|]; auto.
    destruct (is_p2wpkh r); auto. destruct (is_p2wsh r); auto.
  - destruct (no_spend p n Hno) as (e & He & _). unfold psbt0_output_type, slot0. rewrite He. reflexivity.
Qed.
Lemma algorithm0_slot p n :
  psbt0_signing_algorithm p n =
  x <- slot0 p n ;; match kind0 x with Some o => Ok (outtype_algorithm o) | None => Err S0UnknownOutputType end.
Proof.
  unfold psbt0_signing_algorithm. rewrite output_type0_slot. destruct (slot0 p n) as [x| |]; cbn [bind]; auto. destruct (kind0 x); reflexivity.
Qed.
Lemma kind0_iff s u o : kind0 (s, u) = Some o <-> output_kind (to_script u) (i0_redeem_script (snd s)) o.
Proof. apply kind_of_iff. Qed.
Lemma tr_kind s r : kind_of s r = Some Tr <-> exists k, p2tr_key s k.
Proof.
  split.
  - intros H. apply kind_of_iff in H. inversion H; eauto.
  - intros [k H]. apply kind_of_iff. now apply OKTr with k.
Qed.
Lemma spends_ecdsa_iff p n s : spend_at p n s -> (psbt0_signing_algorithm p n = Ok AlgoEcdsa <-> spends_ecdsa s).
Proof.
  intros Hs. rewrite algorithm0_slot. split.
  - destruct (slot0 p n) as [[s' u]| |] eqn:E; cbn [bind]; try discriminate. apply slot0_ok in E as [H1 H2].
    rewrite (spend_at_fun _ _ _ _ H1 Hs) in *. destruct (kind0 (s, u)) as [o|] eqn:Ek; [|discriminate]. apply kind0_iff in Ek.
    intros H. inj H. exists o. split; [exists u; auto|]. intros ->. discriminate.
  - intros (o & (u & Hu & Ho) & Hne). rewrite (proj2 (slot0_ok p n s u)) by auto. cbn [bind]. apply kind0_iff in Ho. rewrite Ho.
    destruct o; auto. congruence.
Qed.
Lemma spends_taproot_iff p n s : spend_at p n s -> (psbt0_signing_algorithm p n = Ok AlgoSchnorr <-> spends_taproot s).
Proof.
  intros Hs. rewrite algorithm0_slot. split.
  - destruct (slot0 p n) as [[s' u]| |] eqn:E; cbn [bind]; try discriminate. apply slot0_ok in E as [H1 H2].
    rewrite (spend_at_fun _ _ _ _ H1 Hs) in *. destruct (kind0 (s, u)) as [o|] eqn:Ek; [|discriminate].
    destruct o; try discriminate. intros _. apply tr_kind in Ek as [k Hk]. exists u, k. auto.
  - intros (u & k & Hu & Hk). rewrite (proj2 (slot0_ok p n s u)) by auto. cbn [bind].
    assert (Hk' : kind0 (s, u) = Some Tr) by (apply tr_kind; eauto). rewrite Hk'. reflexivity.
Qed.
Lemma algorithm0_panic p n : psbt0_signing_algorithm p n = Panic <-> exists s, spend_at p n s /\ vout_out_of_bounds s.
Proof.
  rewrite algorithm0_slot, <- slot0_panic. destruct (slot0 p n) as [x| |]; cbn [bind]; try easy. destruct (kind0 x); easy.
Qed.

(** ** Digests *)

Lemma hash_ty0_iff i ty : input0_ecdsa_hash_ty i = Some ty <-> type_of_input0 i ty.
Proof.
  unfold input0_ecdsa_hash_ty, type_of_input0. destruct (i0_sighash_type i) as [n|].
  - rewrite ecdsa_std_iff. split.
    + intros [-> H]. auto.
    + intros [H [E|[E _]]]; [|discriminate]. injection E as ->. auto.
  - unfold SIGHASH_ALL. split.
    + intros [= <-]. cbn. auto.
    + intros [_ [E|[_ ->]]]; [discriminate|reflexivity].
Qed.
Lemma tap_ty_iff n ty : sighash_tap_ty n = Some ty <-> n = tap_num ty.
Proof.
  unfold sighash_tap_ty. split.
  - destruct (255 <? n) eqn:E; [discriminate|]. rewrite N.mod_small by lia. intros H.
    unfold tap_from_u8 in H. destruct n as [|q]; [now injection H as <-|].
    do 8 (destruct q as [q|q|]; try discriminate; try (injection H as <-; reflexivity)).
  - intros ->. destruct ty; reflexivity.
Qed.
Lemma taproot_ty_iff i ty : (exists t, input0_taproot_hash_ty i = Some t /\ tap_num t = ty) <-> taproot_type_of_input i ty.
Proof.
  unfold input0_taproot_hash_ty, taproot_type_of_input. split.
  - intros (t & H & <-). apply tap_ty_iff in H. destruct (i0_sighash_type i) as [n|]; subst.
    + split; [|now left]. destruct t; cbn; auto 12.
    + split; [|right; split; [reflexivity|]]; destruct t; cbn in *; auto 12; discriminate.
  - intros [Hin H]. assert (Ht : exists t, tap_num t = ty).
    { cbn in Hin. repeat destruct Hin as [<-|Hin]; try contradiction;
        [exists TDefault|exists TAll|exists TNone|exists TSingle|exists TAllAcp|exists TNoneAcp|exists TSingleAcp]; reflexivity. }
    destruct Ht as [t Ht]. exists t. split; [|assumption]. apply tap_ty_iff. destruct H as [->|[-> ->]]; auto.
Qed.

Section Digest.
Context `{X : Ext} `{S : SignExt} `{T : SchnorrExt}.

Lemma sighash0_slot p n t :
  psbt0_sighash_ecdsa p n t =
  x <- slot0 p n ;;
  match kind0 x with
  | None => Err S0UnknownOutputType
  | Some Tr => Err S0WrongSigningAlgorithm
  | Some o =>
      ty <- ok_or (input0_ecdsa_hash_ty (snd (fst x))) S0InvalidSighashType ;;
      m <- match o with
           | Bare => expect (legacy_signature_hash t n (to_script (snd x)) ty)
           | Sh => c <- ok_or (i0_redeem_script (snd (fst x))) S0MissingRedeemScript ;; expect (legacy_signature_hash t n c ty)
           | Wpkh => p2wpkh_signature_hash0 t n (to_script (snd x)) (to_value (snd x)) ty
           | ShWpkh => c <- expect (i0_redeem_script (snd (fst x))) ;; p2wpkh_signature_hash0 t n c (to_value (snd x)) ty
           | Wsh | ShWsh =>
               c <- ok_or (i0_witness_script (snd (fst x))) S0MissingWitnessScript ;;
               ok_or (p2wsh_signature_hash t n c (to_value (snd x)) ty) S0SegwitV0Sighash
           | Tr => Err S0Unsupported
           end ;;
      Ok (m, ty)
  end.
Proof.
  destruct (spend_at_dec p n) as [[[t' i] Hs]|Hno].
  - unfold psbt0_sighash_ecdsa. rewrite algorithm0_slot, output_type0_slot. unfold slot0.
    rewrite (checked0_at p n t' i Hs). cbn [map_err bind].
    destruct (spend_utxo p n) as [u| |]; cbn [bind]; auto. pose proof Hs as Hs'. apply spend_at_iff in Hs' as [Ht _].
    rewrite nth_N_nth, Ht. cbn [expect bind fst snd]. destruct (kind0 _) as [o|]; cbn [bind ok_or]; auto.
    destruct o; cbn [outtype_algorithm fail_if bind]; auto;
      destruct (input0_ecdsa_hash_ty i) as [ty|]; cbn [ok_or bind]; auto.
    + now destruct (i0_witness_script i); cbn [ok_or bind].
    + now destruct (i0_redeem_script i); cbn [expect bind].
    + now destruct (i0_witness_script i); cbn [ok_or bind].
    + now destruct (i0_redeem_script i); cbn [ok_or bind].
  - destruct (no_spend p n Hno) as (e & He & _). unfold psbt0_sighash_ecdsa. rewrite algorithm0_slot. unfold slot0. rewrite He. reflexivity.
Qed.

Lemma sighash0_iff p n t m ty : n < blen (tx_input t) -> (psbt0_sighash_ecdsa p n t = Ok (m, ty) <-> to_sign0 p t n m ty).
Proof.
  intros Hn. rewrite sighash0_slot. unfold to_sign0.
  unfold legacy_signature_hash, p2wpkh_signature_hash0, p2wsh_signature_hash. replace (n <? blen (tx_input t)) with true by lia.
  split.
  - intros H. apply bind_ok in H as ([s u] & Hs & H). apply slot0_ok in Hs as [Hi Hu]. cbn [fst snd] in H.
    destruct (kind0 _) as [o|] eqn:Ek; [|discriminate]. pose proof (proj1 (kind0_iff _ _ _) Ek) as Ho.
    assert (Hne : o <> Tr) by (intros ->; discriminate).
    assert (H' : ty' <- ok_or (input0_ecdsa_hash_ty (snd s)) S0InvalidSighashType ;;
      m <- match o with
           | Bare => Ok (legacy_digest t n (to_script u) ty')
           | Sh => c <- ok_or (i0_redeem_script (snd s)) S0MissingRedeemScript ;; Ok (legacy_digest t n c ty')
           | Wpkh => code <- ok_or (p2wpkh_script_code (to_script u)) S0NotP2wpkhScript ;; Ok (segwit_digest t n code (to_value u) ty')
           | ShWpkh => c <- expect (i0_redeem_script (snd s)) ;; code <- ok_or (p2wpkh_script_code c) S0NotP2wpkhScript ;; Ok (segwit_digest t n code (to_value u) ty')
           | Wsh | ShWsh =>
               c <- ok_or (i0_witness_script (snd s)) S0MissingWitnessScript ;; Ok (segwit_digest t n c (to_value u) ty')
           | Tr => Err S0Unsupported
           end ;;
      Ok (m, ty') = Ok (m, ty)).
    { destruct o; try exact H. congruence. }
    clear H. apply bind_ok in H' as (ty' & Hty & H). apply bind_ok in H as (m' & Hm & H). inj H. injection H as -> ->.
    assert (Hty' : input0_ecdsa_hash_ty (snd s) = Some ty) by (destruct (input0_ecdsa_hash_ty (snd s)); cbn in Hty; [inj Hty; reflexivity|discriminate]).
    apply hash_ty0_iff in Hty'. exists s, u. split; [assumption|]. split; [assumption|]. split; [assumption|]. clear Hty Hne.
    destruct o.
    + inj Hm. now apply M0Bare.
    + inversion Ho as [|h Hh| | | | |]. apply bind_ok in Hm as (c & Hc & Hm). inj Hm.
      destruct (p2wpkh_script_code _) eqn:Ec in Hc; cbn in Hc; [inj Hc|discriminate].
      apply script_code_iff in Ec as (h' & Hh' & ->). now apply M0Wpkh.
    + inversion Ho as [| |h Hh| | | |]. apply bind_ok in Hm as (c & Hc & Hm). inj Hm.
      destruct (i0_witness_script (snd s)) eqn:Ew in Hc; cbn in Hc; [inj Hc|discriminate]. now apply M0Wsh with h.
    + inversion Ho as [| | |r h Hp Hr Hh| | |]. rewrite Hr in Hm. cbn [expect bind] in Hm.
      apply bind_ok in Hm as (c & Hc & Hm). inj Hm.
      destruct (p2wpkh_script_code _) eqn:Ec in Hc; cbn in Hc; [inj Hc|discriminate].
      apply script_code_iff in Ec as (h' & Hh' & ->). now apply M0ShWpkh with r.
    + inversion Ho as [| | | |r h Hp Hr Hh| |]. apply bind_ok in Hm as (c & Hc & Hm). inj Hm.
      destruct (i0_witness_script (snd s)) eqn:Ew in Hc; cbn in Hc; [inj Hc|discriminate]. now apply M0ShWsh with r h.
    + apply bind_ok in Hm as (c & Hc & Hm). inj Hm.
      destruct (i0_redeem_script (snd s)) eqn:Er in Hc; cbn in Hc; [inj Hc|discriminate]. apply M0Sh; [rewrite Er in *|]; assumption.
    + discriminate.
  - intros (s & u & Hi & Hu & Hty & Hm). rewrite (proj2 (slot0_ok p n s u)) by auto. cbn [bind fst snd].
    apply hash_ty0_iff in Hty. rewrite Hty. cbn [ok_or bind].
    destruct Hm as [H|r H Hr|h H|r h H Hr Hh|h w H Hw|r h w H Hr Hh Hw].
    + now rewrite (proj2 (kind0_iff _ _ _) H).
    + rewrite (proj2 (kind0_iff _ _ _) H), Hr. reflexivity.
    + rewrite (proj2 (kind0_iff _ _ Wpkh)) by now apply OKWpkh with h.
      rewrite (proj2 (script_code_iff _ (p2pkh_script h))) by eauto. reflexivity.
    + rewrite (proj2 (kind0_iff _ _ ShWpkh)) by now apply OKShWpkh with r h.
      rewrite Hr. cbn [expect bind]. rewrite (proj2 (script_code_iff _ (p2pkh_script h))) by eauto. reflexivity.
    + rewrite (proj2 (kind0_iff _ _ Wsh)) by now apply OKWsh with h. now rewrite Hw.
    + rewrite (proj2 (kind0_iff _ _ ShWsh)) by now apply OKShWsh with r h. now rewrite Hw.
Qed.
(** Panics, for an index that the transaction has. *)
Lemma sighash0_panic p n t : n < blen (tx_input t) ->
  (psbt0_sighash_ecdsa p n t = Panic <-> exists s, spend_at p n s /\ vout_out_of_bounds s).
Proof.
  intros Hn. rewrite sighash0_slot, <- slot0_panic.
  unfold legacy_signature_hash, p2wpkh_signature_hash0, p2wsh_signature_hash. replace (n <? blen (tx_input t)) with true by lia.
  destruct (slot0 p n) as [[s u]| |] eqn:E; cbn [bind fst snd]; try easy. split; [|discriminate].
  destruct (kind0 _) as [o|] eqn:Ek; [|discriminate]. apply kind0_iff in Ek.
  destruct o; try discriminate; (destruct (input0_ecdsa_hash_ty (snd s)); cbn [ok_or bind]; [|discriminate]).
  - cbn. discriminate.
  - destruct (p2wpkh_script_code _); cbn; discriminate.
  - destruct (i0_witness_script (snd s)); cbn; discriminate.
  - inversion Ek as [| | |r h Hp Hr Hh| | |]. rewrite Hr. cbn [expect bind]. destruct (p2wpkh_script_code _); cbn; discriminate.
  - destruct (i0_witness_script (snd s)); cbn; discriminate.
  - destruct (i0_redeem_script (snd s)); cbn; discriminate.
Qed.
End Digest.

(** ** Taproot digests *)

Lemma F2_of_nth {A B} (R : A -> B -> Prop) l : forall l', length l = length l' ->
  (forall n a b, nth_error l n = Some a -> nth_error l' n = Some b -> R a b) -> Forall2 R l l'.
Proof.
  induction l as [|a l IH]; intros [|b l'] Hl H; try discriminate; constructor.
  - now apply (H 0%nat).
  - apply IH; [now injection Hl|]. intros n x y Hx Hy. now apply (H (Datatypes.S n)).
Qed.
Lemma F2_get {A B} (R : A -> B -> Prop) l l' : Forall2 R l l' -> forall n a b, nth_error l n = Some a -> nth_error l' n = Some b -> R a b.
Proof. induction 1; intros [|n] c d; cbn; try discriminate; [intros [= <-] [= <-]; assumption|apply IHForall2]. Qed.
Lemma indices0_nth p n : nth_error (input_indices0 p) n = if (n <? length (p0_inputs p))%nat then Some (N.of_nat n) else None.
Proof.
  unfold input_indices0. rewrite nth_error_map. destruct (Nat.ltb_spec n (length (p0_inputs p))) as [H|H].
  - rewrite (nth_error_nth' _ 0%nat) by now rewrite seq_length. cbn [option_map]. now rewrite seq_nth.
  - rewrite (proj2 (nth_error_None _ _)); [reflexivity|]. now rewrite seq_length.
Qed.
Lemma indices0_in p n : In n (input_indices0 p) <-> n < blen (p0_inputs p).
Proof.
  unfold input_indices0, blen. rewrite in_map_iff. split.
  - intros (a & <- & H). apply in_seq in H. lia.
  - intros H. exists (N.to_nat n). split; [lia|]. apply in_seq. lia.
Qed.
Lemma indices0_nodup p : NoDup (input_indices0 p).
Proof. unfold input_indices0. apply FinFun.Injective_map_NoDup; [|apply seq_NoDup]. intros a b H. lia. Qed.
Lemma indices0_length p : length (input_indices0 p) = length (p0_inputs p).
Proof. unfold input_indices0. now rewrite map_length, seq_length. Qed.

Definition utxo_found (p : psbt0) (n : N) (o : option txout) : Prop :=
  match o with Some u => spend_utxo p n = Ok u | None => exists e, spend_utxo p n = Err e end.
Lemma in_bounds_at p n s : vouts_in_bounds p -> spend_at p n s -> ~ vout_out_of_bounds s.
Proof. intros H Hs. unfold vouts_in_bounds in H. rewrite Forall_forall in H. apply H, spend_at_in. eauto. Qed.
Lemma spend_utxo_np p n : vouts_in_bounds p -> spend_utxo p n <> Panic.
Proof.
  intros H E. destruct (spend_at_dec p n) as [[s Hs]|Hno].
  - pose proof (spend_utxo_funds p n s Hs) as Hf. rewrite E in Hf. exact (in_bounds_at p n s H Hs Hf).
  - destruct (no_spend p n Hno) as (e & _ & He). congruence.
Qed.
Lemma spend_utxos_spec p l : vouts_in_bounds p -> exists us, spend_utxos p l = Ok us /\ Forall2 (utxo_found p) l us.
Proof.
  intros H. induction l as [|n l (us & E & F)]; cbn [spend_utxos]; [exists []; split; constructor|].
  pose proof (spend_utxo_np p n H) as Hnp. destruct (spend_utxo p n) as [u|e|] eqn:Eu; [| |congruence]; cbn [bind]; rewrite E; cbn [bind].
  - exists (Some u :: us). split; [reflexivity|]. now constructor.
  - exists (None :: us). split; [reflexivity|]. constructor; [cbn; eauto|assumption].
Qed.
Lemma spend_utxos_panic p l : spend_utxos p l = Panic -> exists n s, spend_at p n s /\ vout_out_of_bounds s.
Proof.
  induction l as [|n l IH]; cbn [spend_utxos]; [discriminate|]. destruct (spend_utxo p n) as [u|e|] eqn:E; cbn [bind].
  - intros H. apply IH. destruct (spend_utxos p l); cbn [bind] in H; congruence.
  - intros H. apply IH. destruct (spend_utxos p l); cbn [bind] in H; congruence.
  - intros _. destruct (spend_at_dec p n) as [[s Hs]|Hno].
    + pose proof (spend_utxo_funds p n s Hs) as Hf. rewrite E in Hf. eauto.
    + destruct (no_spend p n Hno) as (e & _ & He). congruence.
Qed.
Lemma somes_all {A} (l : list (option A)) : forallb is_some l = true -> map Some (somes l) = l.
Proof. induction l as [|[a|] l IH]; cbn; intros H; try discriminate; [reflexivity|]. now rewrite <- IH at 2. Qed.
Lemma spends_length p : one_map_per_input p -> length (spends p) = length (p0_inputs p).
Proof. unfold one_map_per_input, spends. intros H. rewrite combine_length. lia. Qed.

(** All outputs spent are known. *)
Lemma all_known p us : Forall2 (utxo_found p) (input_indices0 p) us ->
  (forallb is_some us = true /\ blen (somes us) = blen (tx_input (p0_unsigned_tx p)) <->
   one_map_per_input p /\ Forall2 funds0 (spends p) (somes us)).
Proof.
  intros HF. pose proof (F2_len _ _ _ HF) as Hl. rewrite indices0_length in Hl. split.
  - intros [Ha Hb]. pose proof (somes_all us Ha) as Hs. assert (Hlen : length (somes us) = length us) by (rewrite <- Hs at 2; now rewrite map_length).
    assert (Ho : one_map_per_input p) by (unfold one_map_per_input, blen in *; lia).
    split; [exact Ho|]. apply F2_of_nth; [rewrite spends_length by assumption; congruence|].
    intros n s u Hn Hu. assert (Hus : nth_error us n = Some (Some u)) by (rewrite <- Hs, nth_error_map, Hu; reflexivity).
    assert (Hsp : spend_at p (N.of_nat n) s) by (unfold spend_at; now rewrite Nnat.Nat2N.id).
    assert (Hi : nth_error (input_indices0 p) n = Some (N.of_nat n)).
    { rewrite indices0_nth. apply spend_at_lt in Hsp as [Hsp _]. unfold blen in Hsp. now replace (n <? length (p0_inputs p))%nat with true by (symmetry; apply Nat.ltb_lt; lia). }
    pose proof (F2_get _ _ _ HF n _ _ Hi Hus) as Hf. cbn in Hf. now apply (spend_utxo_ok p (N.of_nat n) s u).
  - intros [Ho Hf]. assert (Ha : forallb is_some us = true).
    { apply forallb_forall. intros o Hin. destruct o as [u|]; [reflexivity|exfalso]. apply In_nth_error in Hin as [n Hn].
      assert (Hlt : (n < length (p0_inputs p))%nat) by (rewrite Hl; apply nth_error_Some; congruence).
      assert (Hi : nth_error (input_indices0 p) n = Some (N.of_nat n)).
      { rewrite indices0_nth. now replace (n <? length (p0_inputs p))%nat with true by (symmetry; now apply Nat.ltb_lt). }
      pose proof (F2_get _ _ _ HF n _ _ Hi Hn) as [e He].
      pose proof (F2_len _ _ _ Hf) as Hl2. rewrite spends_length in Hl2 by assumption.
      destruct (nth_error (spends p) n) as [s|] eqn:Es; [|apply nth_error_None in Es; rewrite spends_length in Es by assumption; lia].
      destruct (nth_error (somes us) n) as [u|] eqn:Eu; [|apply nth_error_None in Eu; lia].
      pose proof (F2_get _ _ _ Hf n _ _ Es Eu) as Hsu.
      assert (Hsp : spend_at p (N.of_nat n) s) by (unfold spend_at; now rewrite Nnat.Nat2N.id).
      apply (spend_utxo_ok p (N.of_nat n) s u Hsp) in Hsu. congruence. }
    split; [exact Ha|]. pose proof (F2_len _ _ _ Hf) as Hl2. rewrite spends_length in Hl2 by assumption. unfold blen, one_map_per_input in *. lia.
Qed.
Lemma funds0_all_fun l us vs : Forall2 funds0 l us -> Forall2 funds0 l vs -> us = vs.
Proof.
  intros H. revert vs. induction H as [|s u l us Hu _ IH]; intros vs Hv; inversion Hv; subst; [reflexivity|].
  f_equal; [eapply funds0_fun; eassumption|auto].
Qed.

Section Taproot.
Context `{X : Ext} `{S : SignExt} `{T : SchnorrExt}.

Definition taproot_prev (p : psbt0) (n : N) (ty : tap_ty) (us : list (option txout)) : res signerr0 prevouts :=
  if 128 <=? tap_num ty then
    o <- expect (nth_error us (N.to_nat n)) ;; u <- ok_or o S0MissingSpendUtxo ;; Ok (PrevoutsOne n u)
  else if forallb is_some us then Ok (PrevoutsAll (somes us)) else Err S0MissingSpendUtxo.
Lemma taproot0_slot p n t leaf :
  psbt0_sighash_taproot p n t leaf =
  x <- slot0 p n ;;
  match kind0 x with
  | None => Err S0UnknownOutputType
  | Some Tr =>
      ty <- ok_or (input0_taproot_hash_ty (snd (fst x))) S0InvalidSighashType ;;
      us <- spend_utxos p (input_indices0 p) ;;
      prev <- taproot_prev p n ty us ;;
      m <- ok_or (taproot_signature_hash t n prev leaf (tap_num ty)) S0TaprootError ;;
      Ok (m, tap_num ty)
  | Some _ => Err S0WrongSigningAlgorithm
  end.
Proof.
  destruct (spend_at_dec p n) as [[[t' i] Hs]|Hno].
  - unfold psbt0_sighash_taproot. rewrite algorithm0_slot, output_type0_slot. unfold slot0.
    rewrite (checked0_at p n t' i Hs). cbn [map_err bind].
    destruct (spend_utxo p n) as [u| |]; cbn [bind]; auto. pose proof Hs as Hs'. apply spend_at_iff in Hs' as [Ht _].
    rewrite nth_N_nth, Ht. cbn [expect bind fst snd]. destruct (kind0 _) as [o|]; cbn [bind ok_or]; auto.
    destruct o; cbn [outtype_algorithm fail_if bind]; auto.
    destruct (input0_taproot_hash_ty i) as [ty|]; cbn [ok_or bind]; auto.
    destruct (spend_utxos _ _) as [us| |]; cbn [bind]; auto. unfold taproot_prev. rewrite nth_N_nth.
    destruct ty; reflexivity.
  - destruct (no_spend p n Hno) as (e & He & _). unfold psbt0_sighash_taproot. rewrite algorithm0_slot. unfold slot0. rewrite He. reflexivity.
Qed.

Lemma taproot0_iff p n leaf m ty : vouts_in_bounds p ->
  (psbt0_sighash_taproot p n (p0_unsigned_tx p) leaf = Ok (m, ty) <-> taproot_to_sign p n leaf m ty).
Proof.
  intros Hb. rewrite taproot0_slot. destruct (spend_utxos_spec p (input_indices0 p) Hb) as (us & Eus & HF).
  assert (Hus : forall s u, spend_at p n s -> funds0 s u -> nth_error us (N.to_nat n) = Some (Some u)).
  { intros s u Hs Hu. pose proof (spend_at_lt _ _ _ Hs) as [Hlt _]. unfold blen in Hlt.
    assert (Hi : nth_error (input_indices0 p) (N.to_nat n) = Some n).
    { rewrite indices0_nth. replace (N.to_nat n <? length (p0_inputs p))%nat with true by (symmetry; apply Nat.ltb_lt; lia). f_equal. lia. }
    destruct (nth_error us (N.to_nat n)) as [o|] eqn:E; [|apply nth_error_None in E; apply F2_len in HF; rewrite indices0_length in HF; lia].
    pose proof (F2_get _ _ _ HF _ _ _ Hi E) as Hf. apply (spend_utxo_ok p n s u Hs) in Hu. destruct o as [v|]; cbn in Hf; [congruence|].
    destruct Hf; congruence. }
  unfold taproot_to_sign. split.
  - intros H. apply bind_ok in H as ([s u] & Hs & H). apply slot0_ok in Hs as [Hi Hu]. cbn [fst snd] in H.
    destruct (kind0 (s, u)) as [o|] eqn:Ek; [|discriminate]. destruct o; try discriminate. apply tr_kind in Ek.
    destruct (input0_taproot_hash_ty (snd s)) as [t|] eqn:Et; cbn [ok_or bind] in H; [|discriminate].
    rewrite Eus in H. cbn [bind] in H. apply bind_ok in H as (prev & Hp & H). apply bind_ok in H as (m' & Hm & H). inj H. injection H as -> <-.
    exists s, u. split; [assumption|]. split; [assumption|]. split; [exact Ek|].
    split; [apply taproot_ty_iff; eauto|]. unfold taproot_prev in Hp. rewrite (Hus s u Hi Hu) in Hp.
    pose proof (spend_at_lt _ _ _ Hi) as [_ Hlt]. unfold taproot_signature_hash in Hm.
    assert (Hsingle : forall q, (q && (negb ((tap_num t =? 3) || (tap_num t =? 131)) || (n <? blen (tx_output (p0_unsigned_tx p)))) = true) ->
              In (tap_num t) [3; 131] -> n < blen (tx_output (p0_unsigned_tx p))).
    { intros q Hq Hin. cbn in Hin. destruct (tap_num t =? 3) eqn:E3; destruct (tap_num t =? 131) eqn:E4; cbn [orb negb] in Hq; lia. }
    match type of Hm with ok_or (if ?b then _ else _) _ = _ => destruct b eqn:Eb end; cbn [ok_or] in Hm; [|discriminate]. inj Hm.
    split; [exact (Hsingle _ Eb)|]. destruct (128 <=? tap_num t) eqn:Ea.
    + left. cbn [expect ok_or bind] in Hp. inj Hp. split; [|reflexivity]. destruct t; try discriminate; cbn; auto.
    + right. destruct (forallb is_some us) eqn:Ef; [|discriminate]. inj Hp. split; [destruct t; try discriminate; cbn; auto|].
      apply andb_prop in Eb as [Eb _]. apply N.eqb_eq in Eb. destruct (proj1 (all_known p us HF) (conj Ef Eb)) as [H1 H2]. eauto.
  - intros (s & u & Hi & Hu & Hk & Hty & Hsingle & Hm). rewrite (proj2 (slot0_ok p n s u)) by auto. cbn [bind fst snd].
    assert (Ek : kind0 (s, u) = Some Tr) by now apply tr_kind. rewrite Ek.
    apply taproot_ty_iff in Hty as (t & Ht & <-). rewrite Ht. cbn [ok_or bind]. rewrite Eus. cbn [bind].
    pose proof (spend_at_lt _ _ _ Hi) as [_ Hlt]. unfold taproot_prev.
    assert (Hs : negb ((tap_num t =? 3) || (tap_num t =? 131)) || (n <? blen (tx_output (p0_unsigned_tx p))) = true).
    { destruct (tap_num t =? 3) eqn:E3; [|destruct (tap_num t =? 131) eqn:E4; [|reflexivity]]; cbn [orb negb]; apply N.ltb_lt, Hsingle; cbn; lia. }
    destruct Hm as [[Hin ->]|(Hin & Ho & us' & Hus' & ->)].
    + replace (128 <=? tap_num t) with true by (cbn in Hin; lia). rewrite (Hus s u Hi Hu). cbn [expect ok_or bind].
      unfold taproot_signature_hash. rewrite Hs. replace (128 <=? tap_num t) with true by (cbn in Hin; lia).
      replace (n <? blen (tx_input (p0_unsigned_tx p))) with true by lia. rewrite N.eqb_refl. reflexivity.
    + replace (128 <=? tap_num t) with false by (cbn in Hin; lia).
      assert (Hall : somes us = us' /\ forallb is_some us = true).
      { assert (Hmap : us = map Some us').
        { pose proof (F2_len _ _ _ Hus') as L1. rewrite spends_length in L1 by assumption. pose proof (F2_len _ _ _ HF) as L2. rewrite indices0_length in L2.
          apply nth_ext_N. intros a. rewrite nth_error_map. destruct (nth_error us (N.to_nat a)) as [o|] eqn:Eo.
          - assert (Ha : (N.to_nat a < length us)%nat) by (apply nth_error_Some; congruence).
            destruct (nth_error us' (N.to_nat a)) as [v|] eqn:Ev; [|apply nth_error_None in Ev; lia].
            destruct (nth_error (spends p) (N.to_nat a)) as [sa|] eqn:Es; [|apply nth_error_None in Es; rewrite spends_length in Es by assumption; lia].
            pose proof (F2_get _ _ _ Hus' _ _ _ Es Ev) as Hsv. apply (spend_utxo_ok p a sa v Es) in Hsv.
            assert (Hia : nth_error (input_indices0 p) (N.to_nat a) = Some a).
            { rewrite indices0_nth. replace (N.to_nat a <? length (p0_inputs p))%nat with true by (symmetry; apply Nat.ltb_lt; lia). f_equal. lia. }
            pose proof (F2_get _ _ _ HF _ _ _ Hia Eo) as Hf. cbn [option_map]. f_equal. destruct o as [w|]; cbn in Hf; [congruence|]. destruct Hf; congruence.
          - apply nth_error_None in Eo. rewrite (proj2 (nth_error_None us' _)) by lia. reflexivity. }
        rewrite Hmap. clear. split; [|induction us'; cbn; auto]. induction us' as [|a l IH]; cbn; [reflexivity|]. now f_equal. }
      destruct Hall as [Hall Hf]. rewrite Hf, Hall. cbn [bind]. unfold taproot_signature_hash. rewrite Hs.
      assert (Hl : blen us' =? blen (tx_input (p0_unsigned_tx p)) = true).
      { pose proof (F2_len _ _ _ Hus') as L1. rewrite spends_length in L1 by assumption. unfold one_map_per_input, blen in *. lia. }
      rewrite Hl. reflexivity.
Qed.
Lemma taproot0_panic p n t leaf : psbt0_sighash_taproot p n t leaf = Panic -> exists a s, spend_at p a s /\ vout_out_of_bounds s.
Proof.
  rewrite taproot0_slot. destruct (slot0 p n) as [[s u]|e|] eqn:E; cbn [bind fst snd]; try discriminate.
  - apply slot0_ok in E as [Hi Hu]. destruct (kind0 _) as [[]|]; try discriminate.
    destruct (input0_taproot_hash_ty (snd s)) as [ty|]; cbn [ok_or bind]; try discriminate.
    destruct (spend_utxos p (input_indices0 p)) as [us|e|] eqn:Eus; cbn [bind]; try discriminate; [|intros _; now apply spend_utxos_panic in Eus].
    unfold taproot_prev. intros H. exfalso. revert H. pose proof (spend_at_lt _ _ _ Hi) as [Hlt _]. unfold blen in Hlt.
    destruct (128 <=? tap_num ty).
    + assert (Hl : length us = length (p0_inputs p)).
      { revert us Eus. rewrite <- indices0_length. generalize (input_indices0 p) as l. induction l as [|a l IH]; cbn [spend_utxos]; intros us H; [now inj H|].
        apply bind_ok in H as (o & _ & H). apply bind_ok in H as (us' & H' & H). inj H. cbn. now rewrite (IH us'). }
      destruct (nth_error us (N.to_nat n)) as [o|] eqn:En; [|apply nth_error_None in En; lia]. cbn [expect bind].
      destruct o; cbn [ok_or bind]; [|discriminate]. destruct (taproot_signature_hash _ _ _ _ _); discriminate.
    + destruct (forallb is_some us); cbn [bind]; [|discriminate]. destruct (taproot_signature_hash _ _ _ _ _); discriminate.
  - intros _. apply slot0_panic in E as (s & H). eauto.
Qed.
End Taproot.

(** ** The loop over the taproot key origins *)

Section SchnorrLoop.
Context `{X : Ext} `{S : SignExt} `{T : SchnorrExt}.
Variable k : provider.
Variable msg : option bytes -> res signerr0 (bytes * N).

Definition bytes_dec : forall a b : bytes, {a = b} + {a <> b} := list_eq_dec Coq.Strings.Byte.byte_eq_dec.

Lemma sign_leaves_spec sk x leaves : forall sigs,
  match sign_leaves msg sk x leaves sigs with
  | Ok sigs' =>
      (forall lh, In lh leaves -> exists m ty, msg (Some lh) = Ok (m, ty))
      /\ forall x' lh g, m_get sk_xleaf (x', lh) sigs' = Some g <->
           (x' = x /\ In lh leaves /\ exists m ty, msg (Some lh) = Ok (m, ty) /\ g = TSig (sign_schnorr m (pv_secret sk)) ty)
           \/ (~ (x' = x /\ In lh leaves) /\ m_get sk_xleaf (x', lh) sigs = Some g)
  | Err e => exists lh, In lh leaves /\ msg (Some lh) = Err e
  | Panic => exists lh, In lh leaves /\ msg (Some lh) = Panic
  end.
Proof.
  induction leaves as [|l0 r IH]; intros sigs; cbn [sign_leaves].
  - split; [intros lh []|]. intros x' lh g. split; [intros H; right; split; [intros [_ []]|exact H]|].
    intros [(_ & [] & _)|[_ H]]. exact H.
  - destruct (msg (Some l0)) as [[m ty]|e|] eqn:Em; cbn [bind]; [|exists l0; cbn; auto|exists l0; cbn; auto].
    specialize (IH (m_put sk_xleaf (x, l0) (TSig (sign_schnorr m (pv_secret sk)) ty) sigs)).
    destruct (sign_leaves _ _ _ _ _) as [sigs'|e|].
    + destruct IH as [H1 H2]. split.
      * intros lh [<-|H]; eauto.
      * intros x' lh g. rewrite H2. destruct (in_dec bytes_dec lh r) as [Hr|Hr]; destruct (bytes_dec x' x) as [->|Hx].
        -- split; (intros [(Hxx & _ & H)|[Hno _]]; [left; cbn; auto|exfalso; cbn in Hno; tauto]).
        -- rewrite (m_get_put_neq _ sk_xleaf_inj) by congruence. split; (intros [[H _]|[_ H]]; [congruence|right; split; [tauto|exact H]]).
        -- destruct (bytes_dec lh l0) as [->|Hl].
           ++ rewrite (m_get_put_eq _ sk_xleaf_inj). split.
              ** intros [(_ & H & _)|[_ H]]; [tauto|]. inj H. left. cbn. eauto 8.
              ** intros [(_ & _ & m' & ty' & Hm & ->)|[Hno _]]; [|exfalso; cbn in Hno; tauto].
                 right. split; [tauto|]. rewrite Em in Hm. inj Hm. now injection Hm as -> ->.
           ++ rewrite (m_get_put_neq _ sk_xleaf_inj) by congruence. cbn [In]. split.
              ** intros [(_ & H & _)|[_ H]]; [tauto|]. right. split; [intros [_ [?|?]]; congruence|exact H].
              ** intros [(_ & [H|H] & _)|[_ H]]; [congruence|tauto|]. right. split; [tauto|exact H].
        -- rewrite (m_get_put_neq _ sk_xleaf_inj) by congruence. split; (intros [[H _]|[_ H]]; [congruence|right; split; [tauto|exact H]]).
    + destruct IH as (lh & H & He). exists lh. cbn. auto.
    + destruct IH as (lh & H & He). exists lh. cbn. auto.
Qed.

(** What is wanted by the entries of [l]. *)
Inductive wanted_in (i : input0) (l : list (bytes * taporigin)) : option bytes -> bytes -> privkey -> Prop :=
| WIKey x src sk : In (x, ([], src)) l -> i0_tap_internal_key i = Some x ->
    i0_tap_key_sig i = None -> k (KRBip32 src) = inr (Some sk) -> wanted_in i l None x sk
| WILeaf x lhs src sk lh : In (x, (lhs, src)) l -> In lh lhs ->
    m_get sk_xleaf (x, lh) (i0_tap_script_sigs i) = None -> k (KRBip32 src) = inr (Some sk) ->
    wanted_in i l (Some lh) x sk.
Lemma wanted_in_all i leaf x sk : wanted_in i (i0_tap_key_origins i) leaf x sk <-> wanted k i leaf x sk.
Proof. split; (intros [x' src sk' H1 H2 H3 H4|x' lhs src sk' lh H1 H2 H3 H4]; [eapply WantKey|eapply WantLeaf] || (intros [x' src sk' H1 H2 H3 H4|x' lhs src sk' lh H1 H2 H3 H4]; [eapply WIKey|eapply WILeaf])); eassumption. Qed.
Lemma wanted_in_fst i l leaf x sk : wanted_in i l leaf x sk -> In x (map fst l).
Proof. intros [x' src sk' H1 _ _ _|x' lhs src sk' lh H1 _ _ _]; now apply (in_map fst) in H1. Qed.
Lemma wanted_in_cons i x0 o l leaf x sk : ~ In x0 (map fst l) ->
  (wanted_in i ((x0, o) :: l) leaf x sk <-> x = x0 /\ wanted_in i [(x0, o)] leaf x sk \/ x <> x0 /\ wanted_in i l leaf x sk).
Proof.
  intros Hn. split.
  - intros [x' src sk' [H1|H1] H2 H3 H4|x' lhs src sk' lh [H1|H1] H2 H3 H4].
    + injection H1 as <- ->. left. split; [reflexivity|]. eapply WIKey; eauto. now left.
    + right. split; [intros ->; now apply (in_map fst) in H1|]. eapply WIKey; eauto.
    + injection H1 as <- ->. left. split; [reflexivity|]. eapply WILeaf; eauto. now left.
    + right. split; [intros ->; now apply (in_map fst) in H1|]. eapply WILeaf; eauto.
  - intros [[_ [x' src sk' [H1|[]] H2 H3 H4|x' lhs src sk' lh [H1|[]] H2 H3 H4]]|[_ [x' src sk' H1 H2 H3 H4|x' lhs src sk' lh H1 H2 H3 H4]]].
    + eapply WIKey; eauto. now left.
    + eapply WILeaf; eauto. now left.
    + eapply WIKey; eauto. now right.
    + eapply WILeaf; eauto. now right.
Qed.

Inductive keys_in (i : input0) : list (bytes * taporigin) -> list bytes -> Prop :=
| KINil : keys_in i [] []
| KIKey x o l r sk : wanted_in i [(x, o)] None x sk -> keys_in i l r -> keys_in i ((x, o) :: l) (x :: r)
| KILeaves x o l r lh sk : wanted_in i [(x, o)] (Some lh) x sk -> keys_in i l r ->
    keys_in i ((x, o) :: l) (x_public sk :: r)
| KINone x o l r : (forall leaf sk, ~ wanted_in i [(x, o)] leaf x sk) -> keys_in i l r -> keys_in i ((x, o) :: l) r.

Record signed_in (i : input0) (l : list (bytes * taporigin)) (i' : input0) : Prop := {
  si_rest : i' = set_i0_tap_script_sigs (i0_tap_script_sigs i') (set_i0_tap_key_sig (i0_tap_key_sig i') i);
  si_all : forall leaf x sk, wanted_in i l leaf x sk -> exists m ty, msg leaf = Ok (m, ty);
  si_key : forall g, i0_tap_key_sig i' = Some g <->
    i0_tap_key_sig i = Some g
    \/ exists x sk m ty, wanted_in i l None x sk /\ msg None = Ok (m, ty)
         /\ g = TSig (sign_schnorr m (tweak_secret (pv_secret sk) (i0_tap_merkle_root i))) ty;
  si_leaf : forall x lh g, m_get sk_xleaf (x, lh) (i0_tap_script_sigs i') = Some g <->
    m_get sk_xleaf (x, lh) (i0_tap_script_sigs i) = Some g
    \/ exists sk m ty, wanted_in i l (Some lh) x sk /\ msg (Some lh) = Ok (m, ty)
         /\ g = TSig (sign_schnorr m (pv_secret sk)) ty
}.
Lemma signed_nothing i l : (forall leaf x sk, ~ wanted_in i l leaf x sk) -> signed_in i l i.
Proof.
  intros H. constructor; [destruct i; reflexivity|intros; exfalso; eapply H; eassumption| |].
  - intros g. split; [auto|]. intros [E|(x & sk & m & ty & Hw & _)]; [exact E|exfalso; eapply H; eassumption].
  - intros x lh g. split; [auto|]. intros [E|(sk & m & ty & Hw & _)]; [exact E|exfalso; eapply H; eassumption].
Qed.

Definition step (x : bytes) (o : taporigin) (i : input0) (used : list bytes) : res signerr0 (input0 * list bytes) :=
  match k (KRBip32 (snd o)) with
  | inr (Some sk) =>
      '(i1, used1) <- sign_key_path msg sk x (fst o) i used ;;
      sign_script_path msg sk x i1 used1
  | _ => Ok (i, used)
  end.
Lemma loop_step x o l i used :
  schnorr_loop k msg ((x, o) :: l) i used = '(i2, used2) <- step x o i used ;; schnorr_loop k msg l i2 used2.
Proof.
  unfold step. destruct o as [lhs src]. cbn [schnorr_loop fst snd]. destruct (k (KRBip32 src)) as [e|[sk|]]; cbn [bind]; try reflexivity.
  destruct (sign_key_path msg sk x lhs i used) as [[i1 used1]|e|]; cbn [bind]; reflexivity.
Qed.
Lemma origins_set_key g i : i0_tap_key_origins (set_i0_tap_key_sig g i) = i0_tap_key_origins i.
Proof. now destruct i. Qed.

Lemma step_spec x o i used : m_get bkey x (i0_tap_key_origins i) = Some o ->
  match step x o i used with
  | Ok (i', used') => signed_in i [(x, o)] i' /\ exists u, used' = used ++ u /\ keys_in i [(x, o)] u
  | Err e => exists leaf sk, wanted_in i [(x, o)] leaf x sk /\ msg leaf = Err e
  | Panic => exists leaf sk, wanted_in i [(x, o)] leaf x sk /\ msg leaf = Panic
  end.
Proof.
  intros Ho. unfold step. destruct o as [lhs src]. cbn [fst snd].
  assert (Hnone : (forall sk, k (KRBip32 src) <> inr (Some sk)) -> signed_in i [(x, (lhs, src))] i /\ exists u, used = used ++ u /\ keys_in i [(x, (lhs, src))] u).
  { intros Hk. assert (Hw : forall leaf y sk, ~ wanted_in i [(x, (lhs, src))] leaf y sk).
    { intros leaf y sk [y' s' sk' [[= <- ? <-]|[]] _ _ Hsk|y' l' s' sk' lh [[= <- <- <-]|[]] _ _ Hsk]; exact (Hk _ Hsk). }
    split; [now apply signed_nothing|]. exists []. rewrite app_nil_r. split; [reflexivity|]. apply KINone; [auto|constructor]. }
  destruct (k (KRBip32 src)) as [e|[sk|]] eqn:Ek; [apply Hnone; intros sk H; discriminate H| |apply Hnone; intros sk H; discriminate H].
  clear Hnone.
  assert (Hscript : forall i1 used1, i0_tap_key_origins i1 = i0_tap_key_origins i ->
     sign_script_path msg sk x i1 used1 =
       let leaves := filter (fun lh => negb (m_mem sk_xleaf (x, lh) (i0_tap_script_sigs i1))) lhs in
       if is_empty leaves then Ok (i1, used1)
       else sigs <- sign_leaves msg sk x leaves (i0_tap_script_sigs i1) ;; Ok (set_i0_tap_script_sigs sigs i1, used1 ++ [x_public sk])).
  { intros i1 used1 E. unfold sign_script_path. rewrite E, Ho. reflexivity. }
  assert (Hcase : (exists y, i0_tap_internal_key i = Some y /\ y = x /\ lhs = [] /\ i0_tap_key_sig i = None) \/
          (sign_key_path msg sk x lhs i used = Ok (i, used) /\ forall s, ~ wanted_in i [(x, (lhs, src))] None x s)).
  { unfold sign_key_path. destruct (i0_tap_internal_key i) as [y|] eqn:Ey.
    - destruct (bytes_eqb y x) eqn:Eb; [apply bytes_eqb_eq in Eb as ->|].
      + destruct lhs as [|l0 lr]; [destruct (i0_tap_key_sig i) as [g|] eqn:Eg|]; cbn [is_empty is_none andb].
        * right. split; [reflexivity|]. intros s H. inversion H; subst. congruence.
        * left. eauto.
        * right. split; [reflexivity|]. intros s H. inversion H as [? ? ? [Hin|[]]|]; subst. congruence.
      + right. cbn [andb]. split; [reflexivity|]. intros s H. inversion H as [? ? ? [Hin|[]]|]; subst. apply bytes_eqb_neq in Eb. congruence.
    - right. split; [reflexivity|]. intros s H. inversion H as [? ? ? [Hin|[]]|]; subst. congruence. }
  destruct Hcase as [(y & Hy & -> & -> & Hg)|[Hkp Hnk]].
  - (* key path *)
    unfold sign_key_path. rewrite Hy, bytes_eqb_refl, Hg. cbn [is_empty is_none andb].
    assert (Hw : wanted_in i [(x, ([], src))] None x sk) by (eapply WIKey; eauto; now left).
    destruct (msg None) as [[m ty]|e|] eqn:Em; cbn [bind]; [|exists None, sk; auto|exists None, sk; auto].
    unfold is_none. cbn [is_some negb]. cbv zeta. cbn [bind]. rewrite Hscript by apply origins_set_key. cbv zeta. cbn [filter is_empty].
    assert (Hleaf : forall lh y s, ~ wanted_in i [(x, ([], src))] (Some lh) y s).
    { intros lh y s H. inversion H as [|? ? ? ? ? [Hin|[]] Hl]; subst. injection Hin as <- <- <-. destruct Hl. }
    split.
    + constructor.
      * destruct i; reflexivity.
      * intros leaf y s H. destruct leaf as [lh|]; [exfalso; eapply Hleaf; eassumption|eauto].
      * intros g. replace (i0_tap_key_sig (set_i0_tap_key_sig _ i)) with (Some (TSig (sign_schnorr m (tweak_secret (pv_secret sk) (i0_tap_merkle_root i))) ty)) by now destruct i.
        split.
        -- intros H. inj H. right. exists x, sk, m, ty. auto.
        -- intros [H|(y & s & m' & ty' & H & Hm & ->)]; [congruence|]. rewrite Em in Hm. inj Hm. injection Hm as <- <-.
           inversion H as [? ? ? [Hin|[]] ? ? Hs|]; subst. injection Hin as <- <-. congruence.
      * intros y lh g. replace (i0_tap_script_sigs (set_i0_tap_key_sig _ i)) with (i0_tap_script_sigs i) by now destruct i.
        split; [auto|]. intros [H|(s & m' & ty' & H & _)]; [exact H|exfalso; eapply Hleaf; eassumption].
    + exists [x]. split; [reflexivity|]. eapply KIKey; [exact Hw|constructor].
  - (* script path *)
    rewrite Hkp. cbn [bind]. rewrite Hscript by reflexivity. cbv zeta.
    set (leaves := filter _ lhs).
    assert (Hin : forall lh s y, wanted_in i [(x, (lhs, src))] (Some lh) y s <-> y = x /\ s = sk /\ In lh leaves).
    { intros lh s y. unfold leaves. rewrite filter_In. unfold m_mem. split.
      - intros H. inversion H as [|? ? ? ? ? [Hin|[]] Hl Hn Hs]; subst. injection Hin as <- <- <-. rewrite Hn. split; [reflexivity|]. split; [congruence|auto].
      - intros (-> & -> & Hl & Hn). eapply WILeaf; eauto; [now left|]. destruct (m_get sk_xleaf (x, lh) _) as [g|]; [exfalso; revert Hn; cbn; discriminate|reflexivity]. }
    assert (Hno : leaves = [] -> forall leaf y s, ~ wanted_in i [(x, (lhs, src))] leaf y s).
    { intros E leaf y s H. destruct leaf as [lh|].
      - apply Hin in H as (_ & _ & H). rewrite E in H. destruct H.
      - pose proof (wanted_in_fst _ _ _ _ _ H) as [<-|[]]. cbn [fst] in H. now apply (Hnk s). }
    destruct leaves as [|l0 lr] eqn:El; cbn [is_empty].
    + split; [apply signed_nothing; auto|]. exists []. rewrite app_nil_r. split; [reflexivity|]. apply KINone; [intros; now apply Hno|constructor].
    + rewrite <- El in *. clear Hno. pose proof (sign_leaves_spec sk x leaves (i0_tap_script_sigs i)) as Hsl.
      destruct (sign_leaves msg sk x leaves (i0_tap_script_sigs i)) as [sigs|e|] eqn:Es; cbn [bind].
      * destruct Hsl as [H1 H2]. split.
        -- constructor.
           ++ destruct i; reflexivity.
           ++ intros leaf y s H. destruct leaf as [lh|]; [apply Hin in H as (_ & _ & H); auto|].
              exfalso. pose proof (wanted_in_fst _ _ _ _ _ H) as [<-|[]]. cbn [fst] in H. now apply (Hnk s).
           ++ intros g. replace (i0_tap_key_sig (set_i0_tap_script_sigs sigs i)) with (i0_tap_key_sig i) by now destruct i.
              split; [auto|]. intros [H|(y & s & m & ty & H & _)]; [exact H|].
              exfalso. pose proof (wanted_in_fst _ _ _ _ _ H) as [<-|[]]. cbn [fst] in H. now apply (Hnk s).
           ++ intros y lh g. replace (i0_tap_script_sigs (set_i0_tap_script_sigs sigs i)) with sigs by now destruct i.
              rewrite H2. split.
              ** intros [(-> & Hl & m & ty & Hm & ->)|[_ H]]; [|auto]. right. exists sk, m, ty. split; [now apply Hin|auto].
              ** intros [H|(s & m & ty & H & Hm & ->)].
                 --- right. split; [|exact H]. intros [-> Hl].
                     assert (Hw : wanted_in i [(x, (lhs, src))] (Some lh) x sk) by now apply Hin.
                     inversion Hw; subst. congruence.
                 --- apply Hin in H as (-> & -> & Hl). left. eauto 8.
        -- exists [x_public sk]. split; [reflexivity|]. apply (KILeaves i x (lhs, src) [] [] l0 sk); [|constructor].
           apply Hin. rewrite El. cbn. auto.
      * destruct Hsl as (lh & Hl & He). exists (Some lh), sk. split; [now apply Hin|exact He].
      * destruct Hsl as (lh & Hl & He). exists (Some lh), sk. split; [now apply Hin|exact He].
Qed.
Lemma set_taps_idem a b i : forall i', i' = set_i0_tap_script_sigs a (set_i0_tap_key_sig b i) ->
  i0_tap_key_origins i' = i0_tap_key_origins i /\ i0_tap_internal_key i' = i0_tap_internal_key i /\ i0_tap_merkle_root i' = i0_tap_merkle_root i
  /\ forall c d, set_i0_tap_script_sigs c (set_i0_tap_key_sig d i') = set_i0_tap_script_sigs c (set_i0_tap_key_sig d i).
Proof. intros i' ->. destruct i. auto. Qed.

(** After an entry the others want what they wanted before. *)
Lemma wanted_later x0 o l i i' : ~ In x0 (map fst l) -> signed_in i [(x0, o)] i' ->
  forall leaf x sk, wanted_in i' l leaf x sk <-> wanted_in i l leaf x sk.
Proof.
  intros Hn Hs. destruct (set_taps_idem _ _ i i' (si_rest _ _ _ Hs)) as (Ho & Hi & Hr & _).
  assert (Hkey : forall x, In x (map fst l) -> i0_tap_internal_key i = Some x -> (i0_tap_key_sig i' = None <-> i0_tap_key_sig i = None)).
  { intros x Hx Hix. pose proof (si_key _ _ _ Hs) as Hk. split; intros H.
    - destruct (i0_tap_key_sig i) as [g|] eqn:E; [|reflexivity]. rewrite (proj2 (Hk g)) in H by auto. discriminate.
    - destruct (i0_tap_key_sig i') as [g|] eqn:E; [|reflexivity]. destruct (proj1 (Hk g) eq_refl) as [H'|(y & sk & m & ty & Hw & _)]; [congruence|].
      inversion Hw as [? ? ? [Hin|[]]|]; subst. injection Hin as -> ->. congruence. }
  assert (Hleaf : forall x lh, In x (map fst l) -> (m_get sk_xleaf (x, lh) (i0_tap_script_sigs i') = None <-> m_get sk_xleaf (x, lh) (i0_tap_script_sigs i) = None)).
  { intros x lh Hx. pose proof (si_leaf _ _ _ Hs x lh) as Hk. split; intros H.
    - destruct (m_get sk_xleaf (x, lh) (i0_tap_script_sigs i)) as [g|] eqn:E; [|reflexivity]. rewrite (proj2 (Hk g)) in H by auto. discriminate.
    - destruct (m_get sk_xleaf (x, lh) (i0_tap_script_sigs i')) as [g|] eqn:E; [|reflexivity].
      destruct (proj1 (Hk g) eq_refl) as [H'|(sk & m & ty & Hw & _)]; [congruence|].
      pose proof (wanted_in_fst _ _ _ _ _ Hw) as [Hf|[]]. cbn in Hf. congruence. }
  intros leaf x sk. split; intros H; pose proof (wanted_in_fst _ _ _ _ _ H) as Hx; destruct H as [x src sk H1 H2 H3 H4|x lhs src sk lh H1 H2 H3 H4].
  - rewrite Hi in H2. eapply WIKey; eauto. now apply (Hkey x).
  - eapply WILeaf; eauto. now apply Hleaf.
  - eapply WIKey; eauto; [now rewrite Hi|now apply (Hkey x)].
  - eapply WILeaf; eauto. now apply Hleaf.
Qed.
Lemma keys_later i i' l u : (forall x o, In (x, o) l -> forall leaf sk, wanted_in i' [(x, o)] leaf x sk <-> wanted_in i [(x, o)] leaf x sk) ->
  keys_in i' l u -> keys_in i l u.
Proof.
  intros H K. induction K as [|x o l r sk Hw K IH|x o l r lh sk Hw K IH|x o l r Hw K IH].
  - constructor.
  - eapply KIKey; [apply (H x o); [now left|exact Hw]|]. apply IH. intros; apply H; now right.
  - eapply KILeaves; [apply (H x o); [now left|exact Hw]|]. apply IH. intros; apply H; now right.
  - eapply KINone; [intros leaf sk Hc; apply (Hw leaf sk); apply (H x o); [now left|exact Hc]|]. apply IH. intros; apply H; now right.
Qed.

Lemma schnorr_loop_spec l : forall i used,
  NoDup (map fst l) -> (forall x o, In (x, o) l -> m_get bkey x (i0_tap_key_origins i) = Some o) ->
  match schnorr_loop k msg l i used with
  | Ok (i', used') => signed_in i l i' /\ exists u, used' = used ++ u /\ keys_in i l u
  | Err e => exists leaf x sk, wanted_in i l leaf x sk /\ msg leaf = Err e
  | Panic => exists leaf x sk, wanted_in i l leaf x sk /\ msg leaf = Panic
  end.
Proof.
  induction l as [|[x0 o] l IH]; intros i used Hnd Hget.
  - cbn [schnorr_loop]. split; [|exists []; rewrite app_nil_r; split; [reflexivity|constructor]].
    apply signed_nothing. intros leaf x sk H. now apply wanted_in_fst in H.
  - rewrite loop_step. cbn [map fst] in Hnd. apply NoDup_cons_iff in Hnd as [Hn Hnd].
    pose proof (step_spec x0 o i used (Hget x0 o (or_introl eq_refl))) as Hstep.
    destruct (step x0 o i used) as [[i2 used2]|e|]; cbn [bind].
    + destruct Hstep as [Hs (u & -> & Hu)].
      destruct (set_taps_idem _ _ i i2 (si_rest _ _ _ Hs)) as (Ho & Hi & Hr & Hidem).
      pose proof (wanted_later x0 o l i i2 Hn Hs) as Hlater.
      specialize (IH i2 (used ++ u) Hnd). destruct (schnorr_loop k msg l i2 (used ++ u)) as [[i3 used3]|e|].
      * destruct IH as [Hs3 (v & -> & Hv)]; [intros x o' Hin; rewrite Ho; apply Hget; now right|]. split.
        -- constructor.
           ++ rewrite (si_rest _ _ _ Hs3) at 1. apply Hidem.
           ++ intros leaf x sk H. apply (wanted_in_cons i x0 o l) in H as [[-> H]|[_ H]]; [|exact (si_all _ _ _ Hs3 _ _ _ (proj2 (Hlater _ _ _) H))|assumption].
              exact (si_all _ _ _ Hs _ _ _ H).
           ++ intros g. rewrite (si_key _ _ _ Hs3), (si_key _ _ _ Hs), Hr. split.
              ** intros [[H|(x & sk & m & ty & H & Hm)]|(x & sk & m & ty & H & Hm)]; [auto|right; exists x, sk, m, ty..].
                 --- split; [|exact Hm]. apply wanted_in_cons; [assumption|]. left. pose proof (wanted_in_fst _ _ _ _ _ H) as [Hf|[]]. cbn in Hf. auto.
                 --- split; [|exact Hm]. apply wanted_in_cons; [assumption|]. right. apply Hlater in H. split; [|exact H].
                     intros ->. now apply wanted_in_fst in H.
              ** intros [H|(x & sk & m & ty & H & Hm)]; [auto|]. apply (wanted_in_cons i x0 o l) in H as [[-> H]|[_ H]]; [| |assumption].
                 --- left. right. eauto 8.
                 --- right. apply Hlater in H. eauto 8.
           ++ intros x lh g. rewrite (si_leaf _ _ _ Hs3), (si_leaf _ _ _ Hs). split.
              ** intros [[H|(sk & m & ty & H & Hm)]|(sk & m & ty & H & Hm)]; [auto|right; exists sk, m, ty..].
                 --- split; [|exact Hm]. apply wanted_in_cons; [assumption|]. left. pose proof (wanted_in_fst _ _ _ _ _ H) as [Hf|[]]. cbn in Hf. auto.
                 --- split; [|exact Hm]. apply wanted_in_cons; [assumption|]. right. apply Hlater in H. split; [|exact H].
                     intros ->. now apply wanted_in_fst in H.
              ** intros [H|(sk & m & ty & H & Hm)]; [auto|]. apply (wanted_in_cons i x0 o l) in H as [[-> H]|[_ H]]; [| |assumption].
                 --- left. right. eauto 8.
                 --- right. apply Hlater in H. eauto 8.
        -- exists (u ++ v). split; [now rewrite app_assoc|].
           assert (Hv' : keys_in i l v).
           { apply (keys_later i i2); [|exact Hv]. intros x o' Hin leaf sk. apply (wanted_later x0 o [(x, o')] i i2); [|exact Hs].
             intros [Hf|[]]. cbn in Hf. subst. now apply (in_map fst) in Hin. }
           inversion Hu as [|? ? ? ? sk Hw Hk|? ? ? ? lh sk Hw Hk|? ? ? ? Hw Hk]; subst; inversion Hk; subst; cbn [app].
           ++ eapply KIKey; eassumption.
           ++ eapply KILeaves; eassumption.
           ++ eapply KINone; eassumption.
      * destruct IH as (leaf & x & sk & H & He); [intros x o' Hin; rewrite Ho; apply Hget; now right|].
        exists leaf, x, sk. split; [|exact He]. apply Hlater in H. apply wanted_in_cons; [assumption|]. right. split; [|exact H]. intros ->. now apply wanted_in_fst in H.
      * destruct IH as (leaf & x & sk & H & He); [intros x o' Hin; rewrite Ho; apply Hget; now right|].
        exists leaf, x, sk. split; [|exact He]. apply Hlater in H. apply wanted_in_cons; [assumption|]. right. split; [|exact H]. intros ->. now apply wanted_in_fst in H.
    + destruct Hstep as (leaf & sk & H & He). exists leaf, x0, sk. split; [|exact He]. apply wanted_in_cons; auto.
    + destruct Hstep as (leaf & sk & H & He). exists leaf, x0, sk. split; [|exact He]. apply wanted_in_cons; auto.
Qed.
Lemma keys_in_all i u : NoDup (map fst (i0_tap_key_origins i)) -> keys_in i (i0_tap_key_origins i) u -> taproot_keys k i (i0_tap_key_origins i) u.
Proof.
  intros Hnd. assert (H : forall x o, In (x, o) (i0_tap_key_origins i) -> forall leaf sk, wanted_in i [(x, o)] leaf x sk <-> wanted k i leaf x sk).
  { intros x o Hin leaf sk. rewrite <- wanted_in_all. split.
    - intros [x' src sk' [H1|[]] H2 H3 H4|x' lhs src sk' lh [H1|[]] H2 H3 H4]; injection H1 as <- ->; [eapply WIKey|eapply WILeaf]; eassumption.
    - assert (Heq : forall o', In (x, o') (i0_tap_key_origins i) -> o' = o).
      { revert Hnd Hin. generalize (i0_tap_key_origins i) as l. clear. induction l as [|[y v] l IH]; cbn [map fst In]; [tauto|].
        intros Hnd Hin o' Hin'. apply NoDup_cons_iff in Hnd as [Hn Hnd].
        destruct Hin as [E|Hin]; destruct Hin' as [E'|Hin']; [congruence|exfalso|exfalso|now apply IH].
        - injection E as -> ->. now apply (in_map fst) in Hin'.
        - injection E' as -> ->. now apply (in_map fst) in Hin. }
      clear Hin. revert Heq. intros Heq W. revert Heq.
      destruct W as [x' src sk' H1 H2 H3 H4|x' lhs src sk' lh H1 H2 H3 H4]; intros Heq; apply Heq in H1 as <-; [eapply WIKey|eapply WILeaf]; eauto; now left. }
  clear Hnd. revert H. generalize (i0_tap_key_origins i) as l. intros l H K.
  induction K as [|x o l r sk Hw K IH|x o l r lh sk Hw K IH|x o l r Hw K IH].
  - constructor.
  - eapply TKKey; [apply (H x o); [now left|exact Hw]|]. apply IH. intros; apply H; now right.
  - eapply TKLeaves; [apply (H x o); [now left|exact Hw]|]. apply IH. intros; apply H; now right.
  - eapply TKNone; [intros leaf sk Hc; apply (Hw leaf sk); apply (H x o); [now left|exact Hc]|]. apply IH. intros; apply H; now right.
Qed.
End SchnorrLoop.

(** ** Signing all inputs *)

Lemma same_sigs0_refl i : same_but_sigs0 i i.
Proof. unfold same_but_sigs0. now destruct i. Qed.
Lemma same_sigs0_trans i j l : same_but_sigs0 i j -> same_but_sigs0 j l -> same_but_sigs0 i l.
Proof. unfold same_but_sigs0. intros H H'. rewrite H' at 1. rewrite H at 1. destruct i, j, l; reflexivity. Qed.
Lemma same_sigs0_fields i j : same_but_sigs0 i j ->
  i0_witness_utxo j = i0_witness_utxo i /\ i0_non_witness_utxo j = i0_non_witness_utxo i
  /\ i0_redeem_script j = i0_redeem_script i /\ i0_witness_script j = i0_witness_script i
  /\ i0_sighash_type j = i0_sighash_type i /\ i0_bip32_derivation j = i0_bip32_derivation i
  /\ i0_tap_key_origins j = i0_tap_key_origins i /\ i0_tap_internal_key j = i0_tap_internal_key i
  /\ i0_tap_merkle_root j = i0_tap_merkle_root i.
Proof. intros ->. destruct i, j. repeat (split; [reflexivity|]). reflexivity. Qed.
Lemma same_signed0_refl p : same_but_signed0 p p.
Proof. constructor; [now destruct p|]. induction (p0_inputs p); constructor; auto using same_sigs0_refl. Qed.

Section SignAll.
Context `{X : Ext} `{S : SignExt} `{T : SchnorrExt}.
Variable k : provider.

Lemma same_signed0_tx p q : same_but_signed0 p q -> p0_unsigned_tx q = p0_unsigned_tx p.
Proof. intros H. rewrite (sb0_rest _ _ H). now destruct p. Qed.
Lemma same_signed0_len p q : same_but_signed0 p q -> length (p0_inputs q) = length (p0_inputs p).
Proof. intros H. symmetry. exact (F2_len _ _ _ (sb0_inputs _ _ H)). Qed.
Lemma checked0_same p q n : same_but_signed0 p q -> nth_error (p0_inputs q) (N.to_nat n) = nth_error (p0_inputs p) (N.to_nat n) ->
  checked_input0 q n = checked_input0 p n.
Proof. intros H E. rewrite !checked0_cases. unfold blen. now rewrite (same_signed0_tx _ _ H), (same_signed0_len _ _ H), E. Qed.
Lemma spend_utxo_same p q n : same_but_signed0 p q -> spend_utxo q n = spend_utxo p n.
Proof.
  intros H. destruct (spend_at_dec p n) as [[[t i] Hs]|Hno].
  - pose proof Hs as Hs'. apply spend_at_iff in Hs as [Ht Hi].
    destruct (nth_error (p0_inputs q) (N.to_nat n)) as [j|] eqn:Ej.
    2: { apply nth_error_None in Ej. rewrite (same_signed0_len _ _ H) in Ej. apply nth_error_None in Ej. congruence. }
    pose proof (F2_get _ _ _ (sb0_inputs _ _ H) _ _ _ Hi Ej) as Hij. apply same_sigs0_fields in Hij as (Hw & Hnw & _).
    rewrite (spend_utxo_at p n t i) by assumption. rewrite (spend_utxo_at q n t j); [now rewrite Hw, Hnw|].
    apply spend_at_iff. now rewrite (same_signed0_tx _ _ H).
  - destruct (no_spend p n Hno) as (e & Hc & Hu). rewrite Hu. unfold spend_utxo.
    assert (Hq : checked_input0 q n = Err e).
    { rewrite checked0_cases in Hc |- *. unfold blen in *. rewrite (same_signed0_tx _ _ H), (same_signed0_len _ _ H).
      destruct (N.of_nat (length (p0_inputs p)) <=? n); [assumption|]. destruct (N.of_nat _ <=? n); [assumption|].
      destruct (nth_error (p0_inputs p) (N.to_nat n)); discriminate. }
    now rewrite Hq.
Qed.
Lemma slot0_same p q n : same_but_signed0 p q -> nth_error (p0_inputs q) (N.to_nat n) = nth_error (p0_inputs p) (N.to_nat n) ->
  slot0 q n = slot0 p n.
Proof. intros H E. unfold slot0. now rewrite (checked0_same p q n H E), (spend_utxo_same p q n H), (same_signed0_tx _ _ H). Qed.
Lemma spend_utxos_same p q l : same_but_signed0 p q -> spend_utxos q l = spend_utxos p l.
Proof. intros H. induction l as [|n l IH]; cbn [spend_utxos]; [reflexivity|]. now rewrite (spend_utxo_same p q n H), IH. Qed.
Lemma algorithm0_same p q n : same_but_signed0 p q -> nth_error (p0_inputs q) (N.to_nat n) = nth_error (p0_inputs p) (N.to_nat n) ->
  psbt0_signing_algorithm q n = psbt0_signing_algorithm p n.
Proof. intros H E. now rewrite !algorithm0_slot, (slot0_same p q n H E). Qed.
Lemma sighash0_same p q n t : same_but_signed0 p q -> nth_error (p0_inputs q) (N.to_nat n) = nth_error (p0_inputs p) (N.to_nat n) ->
  psbt0_sighash_ecdsa q n t = psbt0_sighash_ecdsa p n t.
Proof. intros H E. now rewrite !sighash0_slot, (slot0_same p q n H E). Qed.
Lemma taproot0_same p q n t leaf : same_but_signed0 p q -> nth_error (p0_inputs q) (N.to_nat n) = nth_error (p0_inputs p) (N.to_nat n) ->
  psbt0_sighash_taproot q n t leaf = psbt0_sighash_taproot p n t leaf.
Proof.
  intros H E. rewrite !taproot0_slot, (slot0_same p q n H E). unfold input_indices0. rewrite (same_signed0_len _ _ H), (spend_utxos_same p q _ H). reflexivity.
Qed.
Lemma sign_leaves_ext msg msg' sk x l : (forall leaf, msg leaf = msg' leaf) -> forall sigs, sign_leaves msg sk x l sigs = sign_leaves msg' sk x l sigs.
Proof. intros H. induction l as [|a l IH]; intros sigs; cbn [sign_leaves]; [reflexivity|]. rewrite H. destruct (msg' (Some a)) as [[]| |]; cbn [bind]; auto. Qed.
Lemma schnorr_loop_ext msg msg' l : (forall leaf, msg leaf = msg' leaf) -> forall i used, schnorr_loop k msg l i used = schnorr_loop k msg' l i used.
Proof.
  intros H. induction l as [|[x [lhs src]] l IH]; intros i used; cbn [schnorr_loop]; [reflexivity|].
  destruct (k (KRBip32 src)) as [e|[sk|]]; auto. unfold sign_key_path, sign_script_path. rewrite H.
  match goal with |- bind ?a _ = _ => destruct a as [[i1 used1]|e|] end; cbn [bind]; auto.
  destruct (m_get bkey x (i0_tap_key_origins i1)) as [[a b]|]; cbn [bind]; [|apply IH]. cbv zeta.
  destruct (is_empty _); cbn [bind]; [apply IH|]. rewrite (sign_leaves_ext msg msg' sk x _ H).
  destruct (sign_leaves _ _ _ _ _); cbn [bind]; auto.
Qed.

(** What happens to input [n]. *)
Definition outcome0 (p : psbt0) (n : N) : res signerr0 (input0 * signkeys) :=
  let t := p0_unsigned_tx p in
  match psbt0_signing_algorithm p n with
  | Ok AlgoEcdsa =>
      match psbt0_sighash_ecdsa p n t with
      | Panic => Panic
      | msg =>
          i <- expect (nth_error (p0_inputs p) (N.to_nat n)) ;;
          '(sigs, used) <- sign_loop k msg (i0_bip32_derivation i) (i0_partial_sigs i) [] ;;
          Ok (set_i0_partial_sigs sigs i, KeysEcdsa used)
      end
  | Ok AlgoSchnorr =>
      i <- map_err S0IndexOutOfBounds (checked_input0 p n) ;;
      '(i', used) <- schnorr_loop k (psbt0_sighash_taproot p n t) (i0_tap_key_origins i) i [] ;;
      Ok (i', KeysSchnorr used)
  | Err e => Err e
  | Panic => Panic
  end.
Definition put0 (n : N) (i : input0) (q : psbt0) : psbt0 := set_p0_inputs (set_nth (N.to_nat n) i (p0_inputs q)) q.
Lemma sign_inputs0_step p q n l used errs : same_but_signed0 p q ->
  nth_error (p0_inputs q) (N.to_nat n) = nth_error (p0_inputs p) (N.to_nat n) ->
  sign_inputs0 k (p0_unsigned_tx p) (n :: l) q used errs =
  match outcome0 p n with
  | Ok (i', ks) => sign_inputs0 k (p0_unsigned_tx p) l (put0 n i' q) (used ++ [(n, ks)]) errs
  | Err e => sign_inputs0 k (p0_unsigned_tx p) l q used (errs ++ [(n, e)])
  | Panic => Panic
  end.
Proof.
  intros H E. cbn [sign_inputs0]. rewrite (algorithm0_same p q n H E). unfold outcome0.
  destruct (psbt0_signing_algorithm p n) as [[|]|e|]; auto.
  - unfold bip32_sign_ecdsa0. rewrite (sighash0_same p q n _ H E), nth_N_nth, E.
    destruct (psbt0_sighash_ecdsa p n (p0_unsigned_tx p)) as [[m ty]|e|] eqn:Em; auto.
    + destruct (nth_error (p0_inputs p) (N.to_nat n)) as [i|]; cbn [expect bind]; auto. rewrite sign_loop_ok. cbn [bind]. reflexivity.
    + destruct (nth_error (p0_inputs p) (N.to_nat n)) as [i|]; cbn [expect bind]; auto. rewrite sign_loop_err. destruct (is_empty _); reflexivity.
  - unfold bip32_sign_schnorr. rewrite (checked0_same p q n H E). destruct (checked_input0 p n) as [i|e|]; cbn [map_err bind]; auto.
    rewrite (schnorr_loop_ext _ (psbt0_sighash_taproot p n (p0_unsigned_tx p)) _ (fun leaf => taproot0_same p q n _ leaf H E)).
    destruct (schnorr_loop _ _ _ _ _) as [[i' u]|e|]; cbn [bind]; reflexivity.
Qed.
Definition used_at (p : psbt0) (n : N) : list (N * signkeys) := match outcome0 p n with Ok (_, ks) => [(n, ks)] | _ => [] end.
Definition errs_at (p : psbt0) (n : N) : list (N * signerr0) := match outcome0 p n with Err e => [(n, e)] | _ => [] end.

Lemma same_sigs0_partial l i : same_but_sigs0 i (set_i0_partial_sigs l i).
Proof. unfold same_but_sigs0. now destruct i. Qed.
Lemma schnorr_loop_same msg l : forall i used i' used', schnorr_loop k msg l i used = Ok (i', used') -> same_but_sigs0 i i'.
Proof.
  induction l as [|[x o] l IH]; intros i used i' used' H.
  - cbn [schnorr_loop] in H. inj H. injection H as <- <-. apply same_sigs0_refl.
  - rewrite loop_step in H. apply bind_ok in H as ([i2 used2] & Hs & H). apply IH in H. refine (same_sigs0_trans _ _ _ _ H).
    unfold step in Hs. destruct (k (KRBip32 (snd o))) as [e|[sk|]]; [inj Hs; injection Hs as <- <-; apply same_sigs0_refl| |inj Hs; injection Hs as <- <-; apply same_sigs0_refl].
    apply bind_ok in Hs as ([i1 used1] & Hk & Hs). apply (same_sigs0_trans i i1).
    + unfold sign_key_path in Hk. destruct (i0_tap_internal_key i); [|inj Hk; injection Hk as <- <-; apply same_sigs0_refl].
      destruct (_ && _); [|inj Hk; injection Hk as <- <-; apply same_sigs0_refl].
      apply bind_ok in Hk as ([m ty] & _ & Hk). inj Hk. injection Hk as <- <-. unfold same_but_sigs0. now destruct i.
    + unfold sign_script_path in Hs. destruct (m_get bkey x _) as [[a b]|]; [|inj Hs; injection Hs as <- <-; apply same_sigs0_refl].
      cbv zeta in Hs. destruct (is_empty _); [inj Hs; injection Hs as <- <-; apply same_sigs0_refl|].
      apply bind_ok in Hs as (sigs & _ & Hs). inj Hs. injection Hs as <- <-. unfold same_but_sigs0. now destruct i1.
Qed.
Lemma outcome0_same p n i' ks : outcome0 p n = Ok (i', ks) -> exists i, nth_error (p0_inputs p) (N.to_nat n) = Some i /\ same_but_sigs0 i i'.
Proof.
  unfold outcome0. destruct (psbt0_signing_algorithm p n) as [[|]|e|]; try discriminate.
  - destruct (psbt0_sighash_ecdsa p n (p0_unsigned_tx p)) as [[m ty]|e|]; try discriminate;
    destruct (nth_error (p0_inputs p) (N.to_nat n)) as [i|]; cbn [expect bind]; try discriminate; intros H;
    apply bind_ok in H as ([sigs u] & _ & H); inj H; injection H as <- <-; exists i; split; auto using same_sigs0_partial.
  - intros H. apply bind_ok in H as (i & Hc & H). apply bind_ok in H as ([j u] & Hl & H). inj H. injection H as <- <-.
    exists i. split; [|exact (schnorr_loop_same _ _ _ _ _ _ Hl)]. rewrite checked0_cases in Hc.
    destruct (blen (p0_inputs p) <=? n); [discriminate|]. destruct (blen _ <=? n); [discriminate|].
    destruct (nth_error (p0_inputs p) (N.to_nat n)); [|discriminate]. cbn [map_err] in Hc. now inj Hc.
Qed.
Lemma put0_same p q n i' i : same_but_signed0 p q -> nth_error (p0_inputs q) (N.to_nat n) = nth_error (p0_inputs p) (N.to_nat n) ->
  nth_error (p0_inputs p) (N.to_nat n) = Some i -> same_but_sigs0 i i' -> same_but_signed0 p (put0 n i' q).
Proof.
  intros H E Hi Hs. pose proof (same_signed0_len _ _ H) as Hl. constructor.
  - unfold put0. rewrite (sb0_rest _ _ H) at 2. destruct p, q. reflexivity.
  - unfold put0. replace (p0_inputs (set_p0_inputs _ q)) with (set_nth (N.to_nat n) i' (p0_inputs q)) by now destruct q.
    apply F2_of_nth; [now rewrite set_nth_length|]. intros a x y Hx Hy. destruct (Nat.eq_dec (N.to_nat n) a) as [<-|Hne].
    + rewrite set_nth_same in Hy by (apply nth_error_Some; congruence). inj Hy. congruence.
    + rewrite set_nth_other in Hy by assumption. exact (F2_get _ _ _ (sb0_inputs _ _ H) _ _ _ Hx Hy).
Qed.

Lemma sign_inputs0_spec p l : forall q used errs, same_but_signed0 p q -> NoDup l ->
  (forall n, In n l -> nth_error (p0_inputs q) (N.to_nat n) = nth_error (p0_inputs p) (N.to_nat n)) ->
  match sign_inputs0 k (p0_unsigned_tx p) l q used errs with
  | Ok (q', used', errs') =>
      same_but_signed0 p q' /\ (forall n, In n l -> outcome0 p n <> Panic)
      /\ (forall n, ~ In n l -> nth_error (p0_inputs q') (N.to_nat n) = nth_error (p0_inputs q) (N.to_nat n))
      /\ (forall n, In n l -> nth_error (p0_inputs q') (N.to_nat n) =
            match outcome0 p n with Ok (i', _) => Some i' | _ => nth_error (p0_inputs p) (N.to_nat n) end)
      /\ used' = used ++ flat_map (used_at p) l /\ errs' = errs ++ flat_map (errs_at p) l
  | Err e => False
  | Panic => exists n, In n l /\ outcome0 p n = Panic
  end.
Proof.
  induction l as [|n l IH]; intros q used errs H Hnd Hl.
  - cbn [sign_inputs0 flat_map]. rewrite !app_nil_r. split; [exact H|]. split; [intros n []|]. split; [reflexivity|]. split; [intros n []|]. auto.
  - pose proof (Hl n (or_introl eq_refl)) as En. rewrite (sign_inputs0_step p q n l used errs H En).
    apply NoDup_cons_iff in Hnd as [Hn Hnd]. destruct (outcome0 p n) as [[i' ks]|e|] eqn:Eo.
    + destruct (outcome0_same p n i' ks Eo) as (i & Hi & Hs).
      assert (Hlt : (N.to_nat n < length (p0_inputs q))%nat) by (apply nth_error_Some; congruence).
      assert (Hput : p0_inputs (put0 n i' q) = set_nth (N.to_nat n) i' (p0_inputs q)) by now destruct q.
      assert (Hpre : forall a, In a l -> nth_error (p0_inputs (put0 n i' q)) (N.to_nat a) = nth_error (p0_inputs p) (N.to_nat a)).
      { intros a Ha. rewrite Hput, set_nth_other by (intros Hc; apply Hn; replace n with a by lia; exact Ha). apply Hl. now right. }
      specialize (IH (put0 n i' q) (used ++ [(n, ks)]) errs (put0_same p q n i' i H En Hi Hs) Hnd Hpre).
      destruct (sign_inputs0 _ _ _ _ _ _) as [[[q' used'] errs']|e|]; [|exact IH|].
      * destruct IH as (H1 & H2 & H3 & H4 & -> & ->).
        split; [exact H1|]. split; [intros a [<-|Ha]; [congruence|auto]|]. split.
        { intros a Ha. cbn [In] in Ha. rewrite H3 by tauto. rewrite Hput. apply set_nth_other. intros Hc. apply Ha. left. lia. }
        split.
        { intros a [<-|Ha]; [|auto]. rewrite Eo, H3 by assumption. rewrite Hput. now apply set_nth_same. }
        split; cbn [flat_map]; [unfold used_at at 2|unfold errs_at at 2]; rewrite Eo; [now rewrite <- app_assoc|reflexivity].
      * destruct IH as (a & Ha & Hp). exists a. split; [now right|exact Hp].
    + specialize (IH q used (errs ++ [(n, e)]) H Hnd (fun a Ha => Hl a (or_intror Ha))).
      destruct (sign_inputs0 _ _ _ _ _ _) as [[[q' used'] errs']|e'|]; [|exact IH|].
      * destruct IH as (H1 & H2 & H3 & H4 & -> & ->). split; [exact H1|]. split; [intros a [<-|Ha]; [congruence|auto]|]. split.
        { intros a Ha. apply H3. cbn [In] in Ha. tauto. }
        split.
        { intros a [<-|Ha]; [|auto]. now rewrite Eo, H3, En by assumption. }
        split; cbn [flat_map]; [unfold used_at at 2|unfold errs_at at 2]; rewrite Eo; [reflexivity|now rewrite <- app_assoc].
      * destruct IH as (a & Ha & Hp). exists a. split; [now right|exact Hp].
    + exists n. split; [now left|exact Eo].
Qed.
Lemma sign0_spec p :
  match psbt0_sign k p with
  | Ok (p', used, errs) =>
      same_but_signed0 p p' /\ (forall n, n < blen (p0_inputs p) -> outcome0 p n <> Panic)
      /\ (forall n, n < blen (p0_inputs p) -> nth_error (p0_inputs p') (N.to_nat n) =
            match outcome0 p n with Ok (i', _) => Some i' | _ => nth_error (p0_inputs p) (N.to_nat n) end)
      /\ used = flat_map (used_at p) (input_indices0 p) /\ errs = flat_map (errs_at p) (input_indices0 p)
  | Err e => False
  | Panic => exists n, n < blen (p0_inputs p) /\ outcome0 p n = Panic
  end.
Proof.
  unfold psbt0_sign. pose proof (sign_inputs0_spec p (input_indices0 p) p [] [] (same_signed0_refl p) (indices0_nodup p) (fun _ _ => eq_refl)) as H.
  destruct (sign_inputs0 _ _ _ _ _ _) as [[[q' used'] errs']|e|]; [|exact H|].
  - destruct H as (H1 & H2 & _ & H4 & -> & ->). cbn [app]. split; [exact H1|].
    split; [intros n Hn; apply H2; now apply indices0_in|]. split; [intros n Hn; apply H4; now apply indices0_in|auto].
  - destruct H as (n & Hn & Hp). exists n. split; [now apply indices0_in|exact Hp].
Qed.
End SignAll.
