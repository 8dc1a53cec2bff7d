(** Lemmas about fee and extraction of v0 PSBTs (V0Psbt.v). *)
From Verif Require Import Base Consensus ConsensusFacts Ext Serialize SerializeFacts V2Roles SpecRoles V2RolesFacts
  V0Error V0Input V0Psbt SpecPsbt0 SpecExtract0.
Local Open Scope N_scope.

Definition item0 (s : txin * input0) : res err0 N := u <- input0_funding_utxo (fst s) (snd s) ;; Ok (to_value u).

Lemma funding0_spec s :
  match input0_funding_utxo (fst s) (snd s) with
  | Ok u => forall u', funds0 s u' <-> u' = u
  | Err E0MissingUtxo => no_utxo s
  | Err E0PsbtUtxoOutOfbounds => vout_out_of_bounds s
  | _ => False
  end.
Proof.
  destruct s as [t i]. unfold input0_funding_utxo, funds0, no_utxo, vout_out_of_bounds. cbn [fst snd].
  destruct (i0_witness_utxo i) as [w|].
  - intros u'. split; [|now intros ->; left]. intros [H|[H _]]; congruence.
  - destruct (i0_non_witness_utxo i) as [pt|]; [|auto].
    destruct (nth_error (tx_output pt) (N.to_nat (ti_vout t))) as [u|] eqn:E.
    + intros u'. split.
      * intros [H|(_ & q & Hq & Hn)]; [discriminate|]. injection Hq as <-. congruence.
      * intros ->. right. eauto.
    + split; auto. exists pt. split; auto. apply nth_error_None in E. lia.
Qed.
Lemma oob_no_funds s u : vout_out_of_bounds s -> ~ funds0 s u.
Proof.
  intros (Hb & t & Ht' & Hn) [Hu|(_ & t' & Ht'' & Hn')]; [congruence|].
  rewrite Ht' in Ht''. injection Ht'' as <-. assert (nth_error (tx_output t) (N.to_nat (ti_vout (fst s))) = None) by (apply nth_error_None; lia). congruence.
Qed.
Lemma no_utxo_no_funds s u : no_utxo s -> ~ funds0 s u.
Proof. intros [H1 H2] [H|(_ & t & H & _)]; congruence. Qed.
Lemma item0_ok s v : item0 s = Ok v <-> exists u, funds0 s u /\ to_value u = v.
Proof.
  unfold item0. pose proof (funding0_spec s) as H. destruct (input0_funding_utxo (fst s) (snd s)) as [u|e|]; cbn [bind].
  - split.
    + intros Q. inj Q. exists u. split; auto. now apply H.
    + intros (u' & Hu & <-). apply H in Hu. now subst.
  - split; [discriminate|]. intros (u & Hu & _). exfalso.
    destruct e; try tauto; [now apply (no_utxo_no_funds s u)|now apply (oob_no_funds s u)].
  - tauto.
Qed.
Lemma items0_ok l vs : map item0 l = map Ok vs <-> funded0 l vs.
Proof.
  revert vs; induction l as [|i l IH]; intros vs; cbn [map].
  - destruct vs; cbn; split; try discriminate; intros H; auto; try constructor. inversion H.
  - destruct vs as [|v vs]; cbn [map]; [split; [discriminate|intros H; inversion H]|].
    split.
    + intros [= H1 H2]. apply IH in H2. apply item0_ok in H1. now constructor.
    + intros H. inversion H as [|? ? ? ? H1 H2]; subst. apply item0_ok in H1. apply IH in H2. rewrite H1, H2. reflexivity.
Qed.
Lemma items0_split l vs r l2 : map item0 l = map Ok vs ++ r :: l2 ->
  exists l1 i l3, l = l1 ++ i :: l3 /\ funded0 l1 vs /\ item0 i = r.
Proof.
  revert vs; induction l as [|i l IH]; intros vs; cbn [map]; intros H.
  - destruct vs; discriminate.
  - destruct vs as [|v vs]; cbn [map app] in H; injection H as H1 H2.
    + exists [], i, l. repeat split; auto. constructor.
    + destruct (IH vs H2) as (l1 & j & l3 & -> & Hf & Hr). exists (i :: l1), j, l3. repeat split; auto.
      constructor; auto. now apply item0_ok.
Qed.
Lemma items0_np l : Forall (fun r => r <> Panic) (map item0 l).
Proof.
  rewrite Forall_map. apply Forall_forall. intros s _. pose proof (funding0_spec s). unfold item0.
  destruct (input0_funding_utxo (fst s) (snd s)); cbn; congruence.
Qed.
Lemma funded0_unique l vs vs' : funded0 l vs -> funded0 l vs' -> vs = vs'.
Proof.
  intros H1 H2. apply items0_ok in H1. apply items0_ok in H2. rewrite H1 in H2. clear H1.
  revert vs' H2. induction vs as [|v vs IH]; intros [|v' vs'] H; try discriminate; auto.
  cbn [map] in H. injection H as H1 H2. f_equal; auto.
Qed.

Lemma psbt0_fee_spec p :
  match psbt0_fee p with
  | Ok f => one_map_per_input p /\ exists vs, funded0 (spends p) vs /\ total vs < 2 ^ 64 /\ total (pays0 p) < 2 ^ 64 /\ total vs = total (pays0 p) + f
  | Err E0MissingUtxo => one_map_per_input p /\ first_input0 (fun _ => no_utxo) p
  | Err E0PsbtUtxoOutOfbounds => one_map_per_input p /\ first_input0 (fun _ => vout_out_of_bounds) p
  | Err E0FeeOverflow => one_map_per_input p /\
      (first_input0 (fun n s => exists u, funds0 s u /\ 2 ^ 64 <= n + to_value u) p
       \/ exists vs, funded0 (spends p) vs /\ total vs < 2 ^ 64 /\ 2 ^ 64 <= total (pays0 p))
  | Err E0NegativeFee => one_map_per_input p /\ exists vs, funded0 (spends p) vs /\ total vs < 2 ^ 64 /\ total (pays0 p) < 2 ^ 64 /\ total vs < total (pays0 p)
  | Err _ => False
  | Panic => ~ one_map_per_input p
  end.
Proof.
  unfold psbt0_fee, iter_funding_utxos, one_map_per_input. destruct (Nat.eqb_spec (length (p0_inputs p)) (length (tx_input (p0_unsigned_tx p)))) as [El|Nl];
    cbn [panic_unless bind]; [|assumption].
  rewrite map_map. change (2 ^ 64) with U64. fold (spends p). change (fun x : txin * input0 => u <- input0_funding_utxo (fst x) (snd x);; Ok (to_value u)) with item0.
  pose proof (checked_sum_spec E0FeeOverflow (map item0 (spends p)) (items0_np _) 0) as H.
  destruct (checked_sum E0FeeOverflow 0 (map item0 (spends p))) as [s|e|]; cbn [bind].
  - destruct H as (vs & Hv & -> & Hs); [reflexivity|]. apply items0_ok in Hv. rewrite N.add_0_l in *.
    assert (Ho : Forall (fun r => r <> Panic) (map (fun o => @Ok err0 N (to_value o)) (tx_output (p0_unsigned_tx p)))).
    { rewrite Forall_map. apply Forall_forall. discriminate. }
    pose proof (checked_sum_spec E0FeeOverflow _ Ho 0) as H. clear Ho.
    destruct (checked_sum E0FeeOverflow 0 _) as [s|e|]; cbn [bind].
    + destruct H as (ws & Hw & -> & Hs'); [reflexivity|]. rewrite N.add_0_l in *.
      assert (ws = pays0 p) as ->.
      { unfold pays0. clear -Hw. revert ws Hw. induction (tx_output (p0_unsigned_tx p)) as [|o l IH]; intros [|w ws]; cbn [map]; try discriminate; auto.
        intros [= -> H]. f_equal. now apply IH. }
      destruct (total (pays0 p) <=? total vs) eqn:E; (split; [exact El|]); exists vs; repeat split; auto; lia.
    + destruct H as (ws & r & l2 & Hw & Hs' & Hc); [reflexivity|].
      assert (Hamt : forall (ls : list txout) ws r l2, map (fun o => @Ok err0 N (to_value o)) ls = map Ok ws ++ r :: l2 ->
               exists v, r = Ok v /\ total (map to_value ls) >= total ws + v).
      { clear. induction ls as [|o ls IH]; intros ws r l2 H; cbn [map] in *; [destruct ws; discriminate|].
        destruct ws as [|w ws]; cbn [map app] in H; injection H as H1 H2.
        - subst r. exists (to_value o). split; auto. cbn. lia.
        - destruct (IH _ _ _ H2) as (v & Hv' & Hle). exists v. split; auto. rewrite !total_cons. lia. }
      destruct (Hamt _ _ _ _ Hw) as (v & -> & Hle). destruct Hc as [Hc|(-> & x & Hx & Hov)]; [discriminate|].
      injection Hx as <-. split; auto. right. exists vs. repeat split; auto. unfold pays0. lia.
    + exfalso. apply H. reflexivity.
  - destruct H as (vs & r & l2 & Hl & Hs & Hc); [reflexivity|]. rewrite !N.add_0_l in *.
    apply items0_split in Hl as (l1 & i & l3 & Hl & Hf & Hr).
    destruct Hc as [->|(-> & v & -> & Hov)].
    + unfold item0 in Hr. pose proof (funding0_spec i) as Q. destruct (input0_funding_utxo (fst i) (snd i)) as [u|e'|]; cbn [bind] in Hr; try discriminate.
      injection Hr as ->. destruct e; try tauto; (split; auto); exists l1, i, l3, vs; auto.
    + apply item0_ok in Hr as (u & Hu & <-). split; auto. left. exists l1, i, l3, vs. repeat split; eauto.
  - exfalso. apply H. reflexivity.
Qed.

Lemma first_out_of_bounds p : first_input0 (fun _ => vout_out_of_bounds) p -> one_map_per_input p -> psbt0_fee p = Err E0PsbtUtxoOutOfbounds.
Proof.
  intros (l1 & s & l2 & vs & Hl & Hf & Ht & Hb) El. pose proof (psbt0_fee_spec p) as H.
  assert (Q : forall ws, ~ funded0 (spends p) ws).
  { intros ws Hw. rewrite Hl in Hw. apply Forall2_app_inv_l in Hw as (w1 & w2 & _ & F2 & _).
    inversion F2 as [|? ? ? ? (u & Hu & _)]; subst. now apply (oob_no_funds s u). }
  assert (U : forall (P : N -> txin * input0 -> Prop), first_input0 P p -> (forall n s', P n s' -> ~ (exists u, funds0 s' u /\ n + to_value u < 2 ^ 64)) ->
    exists n, P n s).
  { intros P (k1 & s' & k2 & ws & Hk & Hg & Hs & HP) HN. rewrite Hl in Hk.
    assert (G : exists n, n = length l1 /\ n = length k1 \/ (length l1 < length k1)%nat \/ (length k1 < length l1)%nat) by (exists (length l1); lia).
    destruct G as (n & [(G1 & G2)|[G|G]]).
    - assert (l1 = k1 /\ s :: l2 = s' :: k2) as [-> E].
      { clear -Hk G1 G2. subst n. revert k1 Hk G2. induction l1 as [|a l1 IH]; intros [|b k1] Hk G2; try discriminate; auto.
        cbn [app length] in *. injection Hk as -> Hk. injection G2 as G2. destruct (IH k1 Hk G2) as [-> ->]. auto. }
      injection E as -> _. eauto.
    - exfalso. assert (exists r, k1 = l1 ++ s :: r) as [r ->].
      { clear -Hk G. revert k1 Hk G. induction l1 as [|a l1 IH]; intros [|b k1] Hk G; cbn [length app] in *; try lia.
        - injection Hk as -> _. eauto.
        - injection Hk as -> Hk. destruct (IH k1 Hk) as [r ->]; [lia|]. eauto. }
      apply Forall2_app_inv_l in Hg as (w1 & w2 & _ & F2 & _). inversion F2 as [|? ? ? ? (u & Hu & _)]; subst. now apply (oob_no_funds s u).
    - exfalso. assert (exists r, l1 = k1 ++ s' :: r) as [r ->].
      { clear -Hk G. revert l1 Hk G. induction k1 as [|a k1 IH]; intros [|b l1] Hk G; cbn [length app] in *; try lia.
        - injection Hk as -> _. eauto.
        - injection Hk as -> Hk. destruct (IH l1 Hk) as [r ->]; [lia|]. eauto. }
      apply Forall2_app_inv_l in Hf as (w1 & w2 & F1 & F2 & ->). inversion F2 as [|? ? ? ? (u & Hu & Hv)]; subst.
      pose proof (funded0_unique _ _ _ F1 Hg) as ->. apply (HN _ _ HP). exists u. split; auto. rewrite total_app, total_cons in Ht. lia. }
  destruct (psbt0_fee p) as [f|e|]; [| |tauto].
  - destruct H as (_ & ws & Hw & _). now apply Q in Hw.
  - destruct e; try tauto.
    + destruct H as (_ & H). apply U in H as (_ & H & H').
      * destruct Hb as (_ & t & Ht' & _). congruence.
      * intros n s' Hn (u & Hu & _). now apply (no_utxo_no_funds s' u).
    + destruct H as (_ & ws & Hw & _). now apply Q in Hw.
    + destruct H as (_ & [H|(ws & Hw & _)]); [|now apply Q in Hw]. apply U in H as (n & u & Hu & _).
      * exfalso. now apply (oob_no_funds s u).
      * intros n' s' (u & Hu & Hle) (u' & Hu' & Hlt). pose proof (proj2 (item0_ok s' _) (ex_intro _ u (conj Hu eq_refl))).
        pose proof (proj2 (item0_ok s' _) (ex_intro _ u' (conj Hu' eq_refl))). assert (to_value u = to_value u') by congruence. lia.
Qed.

(** ** Extraction *)
Lemma fill_length l : forall is, length (fill_inputs l is) = length l.
Proof. induction l; intros [|i is]; cbn; auto. Qed.
Lemma fill_nth l : forall is n ui i, nth_error l n = Some ui -> nth_error is n = Some i ->
  nth_error (fill_inputs l is) n = Some (TxIn (ti_txid ui) (ti_vout ui) (opt_default [] (i0_final_script_sig i)) (ti_sequence ui)
           (opt_default [] (i0_final_script_witness i))).
Proof.
  induction l as [|t l IH]; intros [|j is] [|n] ui i H1 H2; cbn in *; try discriminate.
  - congruence.
  - now apply IH.
Qed.
Lemma extract0_spec p : extracted0 p (extract0_unchecked p).
Proof.
  constructor; auto; cbn [extract0_unchecked tx_input].
  - apply fill_length.
  - intros n ti ui i H1 H2 H3. rewrite (fill_nth _ _ _ _ _ H2 H3) in H1. injection H1 as <-. cbn. repeat split.
Qed.
Lemma nth_ext_eq {A} (l l' : list A) : length l = length l' ->
  (forall n a b, nth_error l n = Some a -> nth_error l' n = Some b -> a = b) -> l = l'.
Proof.
  revert l'; induction l as [|x l IH]; intros [|y l'] Hl H; try discriminate; auto. f_equal.
  - apply (H 0%nat); reflexivity.
  - apply IH; [now injection Hl|]. intros n a b Ha Hb. apply (H (S n)); auto.
Qed.
Lemma extracted0_unique p t t' : one_map_per_input p -> extracted0 p t -> extracted0 p t' -> t = t'.
Proof.
  intros Hl [A1 A2 A3 A4 A5] [B1 B2 B3 B4 B5]. destruct t as [v l is os], t' as [v' l' is' os'].
  cbn [tx_version tx_lock_time tx_output tx_input] in *. subst. f_equal. apply nth_ext_eq; [congruence|].
  intros n a b Ha Hb. assert (Hn : (n < length is)%nat) by (apply nth_error_Some; congruence).
  destruct (nth_error (tx_input (p0_unsigned_tx p)) n) as [ui|] eqn:E1; [|apply nth_error_None in E1; lia].
  destruct (nth_error (p0_inputs p) n) as [i|] eqn:E2; [|apply nth_error_None in E2; unfold one_map_per_input in Hl; lia].
  destruct (A5 n a ui i Ha E1 E2) as (P1 & P2 & P3 & P4 & P5). destruct (B5 n b ui i Hb E1 E2) as (Q1 & Q2 & Q3 & Q4 & Q5).
  destruct a, b; cbn in *. congruence.
Qed.
Lemma strip_extract0 p : unsigned (p0_unsigned_tx p) -> strip_signatures (extract0_unchecked p) = p0_unsigned_tx p.
Proof.
  unfold unsigned, strip_signatures, extract0_unchecked. destruct (p0_unsigned_tx p) as [v l is os]. cbn. intros H. f_equal.
  revert H. generalize (p0_inputs p). induction is as [|t is IH]; intros [|i l'] H; cbn [fill_inputs map]; auto.
  - f_equal; [|].
    + apply Forall_inv in H as [H1 H2]. destruct t. cbn in *. now subst.
    + specialize (IH []). inversion H; subst. destruct is; cbn in *; auto.
  - f_equal; [|].
    + apply Forall_inv in H as [H1 H2]. destruct t. cbn in *. now subst.
    + apply IH. now inversion H.
Qed.
