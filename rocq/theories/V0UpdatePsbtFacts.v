(** What updates make of a v0 PSBT (V0Update.v). *)
From Coq Require Import Sorted Permutation.
From Verif Require Import Base OMap Consensus Ext Raw TapTree TapTreeFacts SpecCodec Serialize SerializeFacts MapCodec V2Sign SpecSign
  V2Roles V2Finalize V2RolesFacts V0Input V0Output V0Psbt SpecExtract0 V0Sign SpecSign0 V0SignFacts V0Finalize V0Update SpecUpdate0 V0UpdateFacts
  V0UpdateItemFacts.
Local Open Scope N_scope.

Lemma set_nth_self {A} (l : list A) : forall n a, nth_error l n = Some a -> set_nth n a l = l.
Proof.
  induction l as [|b l IH]; intros [|n] a H; cbn [nth_error set_nth] in *; try discriminate.
  - now injection H as ->.
  - now rewrite IH.
Qed.
Lemma set_nth_replaced {A} (l : list A) n a b : nth_error l (N.to_nat n) = Some a -> replaced n a b l (set_nth (N.to_nat n) b l).
Proof.
  intros H. unfold replaced. remember (N.to_nat n) as k eqn:Ek.
  assert (G : exists l1 l2, l = l1 ++ a :: l2 /\ set_nth k b l = l1 ++ b :: l2 /\ length l1 = k).
  { clear Ek n. revert k H. induction l as [|c l IH]; intros [|k] H; cbn [nth_error] in H; try discriminate.
    - injection H as ->. exists [], l. auto.
    - destruct (IH k H) as (l1 & l2 & E1 & E2 & E3). exists (c :: l1), l2. cbn [set_nth app length]. rewrite E2, <- E1, E3. auto. }
  destruct G as (l1 & l2 & E1 & E2 & E3). exists l1, l2. split; [exact E1|]. split; [exact E2|]. lia.
Qed.
Lemma replaced_nth {A} n (a b : A) l l' : replaced n a b l l' -> nth_error l (N.to_nat n) = Some a /\ nth_error l' (N.to_nat n) = Some b.
Proof.
  intros (l1 & l2 & -> & -> & <-). rewrite Nat2N.id, !nth_error_app2, Nat.sub_diag by lia. auto.
Qed.
Lemma replaced_other {A} n (a b : A) l l' m : replaced n a b l l' -> m <> n -> nth_error l' (N.to_nat m) = nth_error l (N.to_nat m).
Proof.
  intros (l1 & l2 & -> & -> & <-) H. destruct (lt_dec (N.to_nat m) (length l1)).
  - now rewrite !nth_error_app1 by lia.
  - rewrite !nth_error_app2 by lia. destruct (N.to_nat m - length l1)%nat eqn:E; [lia|]. reflexivity.
Qed.
Lemma replaced_length {A} n (a b : A) l l' : replaced n a b l l' -> length l' = length l.
Proof. intros (l1 & l2 & -> & -> & _). now rewrite !app_length. Qed.
Lemma replaced_fun {A} n (a a' b b' : A) l l' : replaced n a b l l' -> replaced n a' b' l l' -> a = a' /\ b = b'.
Proof. intros H1 H2. apply replaced_nth in H1 as [A1 B1], H2 as [A2 B2]. split; congruence. Qed.
Lemma replaced_set {A} n (a b : A) l l' : replaced n a b l l' -> l' = set_nth (N.to_nat n) b l.
Proof.
  intros (l1 & l2 & -> & -> & <-). rewrite Nat2N.id. induction l1 as [|c l1 IH]; [reflexivity|]. cbn [app length set_nth]. now rewrite <- IH.
Qed.

Section Update.
Context `{X : Ext} `{T : SchnorrExt} `{D : DescExt}.

Lemma segwit_legacy {K} (d : descr K) : if desc_is_segwit d then ~ legacy d else legacy d.
Proof. destruct d; cbn; auto. Qed.

Lemma spendable_fun {K} (d : descr K) s u v : spendable d s u -> spendable d s v -> u = v.
Proof.
  intros [H _] [G _]. pose proof (so_some _ _ H) as N. unfold no_utxo in N. destruct s as [t i]. cbn [snd fst] in *.
  destruct (i0_witness_utxo i) as [w|] eqn:Ew.
  - now rewrite <- (so_witness _ _ H w Ew), <- (so_witness _ _ G w Ew).
  - destruct (i0_non_witness_utxo i) as [q|] eqn:Eq; [|now destruct N].
    pose proof (so_prev _ _ H q Eq) as E1. pose proof (so_prev _ _ G q Eq) as E2. congruence.
Qed.

(** The output that a spendable input spends is the one that the signer takes. *)
Lemma spendable_funds {K} (d : descr K) s u : spendable d s u -> funds0 s u.
Proof.
  intros [H _]. unfold funds0. destruct (i0_witness_utxo (snd s)) as [w|] eqn:Ew.
  - left. now rewrite (so_witness _ _ H w Ew).
  - right. split; [reflexivity|]. destruct (i0_non_witness_utxo (snd s)) as [q|] eqn:Eq.
    + exists q. split; [reflexivity|]. now apply (so_prev _ _ H).
    + exfalso. apply (so_some _ _ H). now split.
Qed.

Definition check_utxo (d : descr dkey) (ti : txin) (i : input0) : res utxoupderr bytes :=
  _ <- match i0_non_witness_utxo i with
       | Some prev => fail_if (negb (bytes_eqb (ti_txid ti) (compute_txid prev))) UUUtxoCheck
       | None => Ok tt
       end ;;
  expected_spk d i ti.

Lemma txout_eqb_iff (u v : txout) : negb ((to_value u =? to_value v) && bytes_eqb (to_script u) (to_script v)) = false <-> u = v.
Proof.
  rewrite negb_false_iff, andb_true_iff, N.eqb_eq, bytes_eqb_eq. destruct u, v; cbn. split; [intros [-> ->]; reflexivity|].
  intros E. now injection E.
Qed.

Lemma check_utxo_spec d ti i :
  match check_utxo d ti i with
  | Ok spk => exists u, spendable d (ti, i) u /\ to_script u = spk
  | Err e => e = UUUtxoCheck /\ forall u, ~ spendable d (ti, i) u
  | Panic => False
  end.
Proof.
  unfold check_utxo, expected_spk. pose proof (segwit_legacy d) as Hseg.
  destruct (i0_non_witness_utxo i) as [prev|] eqn:Ep.
  - destruct (bytes_eqb (ti_txid ti) (compute_txid prev)) eqn:Et; cbn [negb fail_if bind].
    2:{ split; [reflexivity|]. intros u [H _]. pose proof (so_txid _ _ H prev Ep) as E. cbn [fst] in E.
        change (sha256d (enc_tx_nowit prev)) with (compute_txid prev) in E. rewrite E, bytes_eqb_refl in Et. discriminate. }
    apply bytes_eqb_eq in Et.
    assert (Hsp : forall v, nth_error (tx_output prev) (N.to_nat (ti_vout ti)) = Some v ->
                  (forall w, i0_witness_utxo i = Some w -> w = v) -> spendable d (ti, i) v).
    { intros v Hv Hw. split.
      - constructor; cbn [fst snd].
        + intros t E. cbn [fst snd] in *. rewrite Ep in E. injection E as <-. symmetry. exact Et.
        + intros t E. rewrite Ep in E. injection E as <-. exact Hv.
        + exact Hw.
        + unfold no_utxo. cbn [snd]. intros [_ E]. congruence.
      - cbn [snd]. congruence. }
    rewrite nth_N_nth.
    destruct (i0_witness_utxo i) as [w|] eqn:Ew; (destruct (nth_error (tx_output prev) (N.to_nat (ti_vout ti))) as [v|] eqn:Ev; cbn [ok_or bind];
      [|split; [reflexivity|]; intros u [H _]; pose proof (so_prev _ _ H prev Ep) as E; cbn [fst] in E; congruence]).
    + destruct (negb _) eqn:Ec; cbn [fail_if bind].
      * split; [reflexivity|]. intros u [H _]. pose proof (so_witness _ _ H w Ew) as E1. pose proof (so_prev _ _ H prev Ep) as E2. cbn [fst] in E2.
        assert (w = v) by congruence. apply txout_eqb_iff in H0. congruence.
      * apply txout_eqb_iff in Ec. subst v. exists w. split; [|reflexivity]. apply (Hsp w eq_refl). intros w' E. congruence.
    + exists v. split; [|reflexivity]. apply (Hsp v eq_refl). discriminate.
  - cbn [bind]. destruct (i0_witness_utxo i) as [w|] eqn:Ew.
    + destruct (desc_is_segwit d).
      * exists w. split; [|reflexivity]. split; [|cbn [snd]; tauto]. constructor; cbn [fst snd].
        -- intros t E. cbn [snd] in E. congruence.
        -- congruence.
        -- congruence.
        -- unfold no_utxo. cbn [snd]. intros [E _]. congruence.
      * split; [reflexivity|]. intros u [_ H]. now apply H.
    + split; [reflexivity|]. intros u [H _]. apply (so_some _ _ H). now split.
Qed.

Lemma update_input_cases (L : ExtLaws X) (LD : DescLaws T) n d p ti i : spend_at p n (ti, i) ->
  (exists u d' f', spendable d (ti, i) u /\ derives d d' /\ fits d' /\ to_script u = spk_of d' /\ new_fields d' (input_fields i) f'
     /\ update_input n d p = (set_p0_inputs (set_nth (N.to_nat n) (input_with_fields f' i) (p0_inputs p)) p, Ok tt))
  \/ (exists e, input_update_error n d p e /\ update_input n d p = (p, Err e))
  \/ (exists u d', spendable d (ti, i) u /\ derives d d' /\ ~ fits d' /\ update_input n d p = (p, Panic)).
Proof.
  intros Hs. pose proof (proj1 (spend_at_iff p n ti i) Hs) as [Ht Hi]. unfold update_input. rewrite !nth_N_nth, Hi, Ht.
  pose proof (check_utxo_spec d ti i) as Hc. unfold check_utxo in Hc. destruct (_ <- _ ;; expected_spk d i ti) as [spk|e|]; [| |contradiction].
  2:{ destruct Hc as [-> Hc]. right. left. eexists. split; [|reflexivity]. now apply (IEUtxo n d p (ti, i)). }
  assert (Hself : set_p0_inputs (set_nth (N.to_nat n) (input_with_fields (input_fields i) i) (p0_inputs p)) p = p).
  { rewrite input_fields_same, (set_nth_self _ _ _ Hi). now destruct p. }
  destruct Hc as (u & Hu & Eu). destruct (derives_cases d) as [[d' Hd]|Hd].
  2:{ rewrite (update_item_err d _ _ Hd), Hself. cbn [map_err bind]. right. left. eexists. split; [|reflexivity].
      apply (IEKeys n d p (ti, i) u Hs Hu). destruct (derive_desc_cases d) as [[d' E]|[_ H]]; [|exact H]. apply derive_desc_ok in E. now apply Hd in E. }
  assert (Hf : fits d' \/ ~ fits d').
  { destruct (fits_cases d') as [H|(k & t & -> & H)]; [now left|]. right. cbn [fits]. lia. }
  destruct Hf as [Hf|Hf].
  2:{ rewrite (update_item_deep d d' _ _ Hd Hf), Hself. cbn [map_err bind]. right. right. exists u, d'. auto. }
  destruct (update_item_ok L LD d d' (Some spk) (input_fields i) Hd Hf) as (f' & Hn & E). rewrite E. cbn [check_fails].
  destruct (bytes_eqb spk (spk_of d')) eqn:Es; cbn [negb].
  - apply bytes_eqb_eq in Es. left. exists u, d', f'. cbn [map_err bind fail_if negb]. split; [exact Hu|]. split; [exact Hd|]. split; [exact Hf|].
    split; [congruence|]. split; [exact Hn|reflexivity].
  - rewrite Hself. cbn [map_err bind fail_if negb]. right. left. eexists. split; [|reflexivity].
    apply (IEScript n d p (ti, i) u d' Hs Hu Hd Hf). intros Ec. rewrite <- Ec, <- Eu, bytes_eqb_refl in Es. discriminate.
Qed.

Lemma update_input_none n d p : (forall s, ~ spend_at p n s) -> exists e, input_update_error n d p e /\ update_input n d p = (p, Err e).
Proof.
  intros H. unfold update_input. destruct (nth_N (p0_inputs p) n) as [i|] eqn:Ei.
  - destruct (nth_N (tx_input (p0_unsigned_tx p)) n) as [ti|] eqn:Et.
    + exfalso. rewrite nth_N_nth in Ei. rewrite nth_N_nth in Et. apply (H (ti, i)). now apply spend_at_iff.
    + eexists. split; [|reflexivity]. apply IEMissing; [|now apply nth_N_none].
      destruct (N.lt_ge_cases n (blen (p0_inputs p))) as [Hl|Hl]; [exact Hl|]. apply nth_N_none in Hl. congruence.
  - eexists. split; [|reflexivity]. apply IEIndex. now apply nth_N_none.
Qed.

(** The error is determined, and excludes success. *)
Lemma input_error_at n d p e s u : input_update_error n d p e -> spend_at p n s -> spendable d s u ->
  (forall d', derives d d' -> e = UUMismatchedScriptPubkey /\ fits d' /\ to_script u <> spk_of d').
Proof.
  intros He Hs Hu d' Hd. pose proof (spend_at_lt p n s Hs) as [B1 B2].
  destruct He as [H|H1 H2|s' Hs' H|s' u' Hs' Hu' (k & Hk & E)|s' u' d'' Hs' Hu' Hd' Hf H]; try lia.
  - rewrite (spend_at_fun _ _ _ _ Hs' Hs) in H. now apply H in Hu.
  - exfalso. exact (derives_no_hardened d d' k Hd Hk E).
  - rewrite (spend_at_fun _ _ _ _ Hs' Hs) in Hu'. rewrite (spendable_fun d s u u' Hu Hu'). rewrite (derives_fun _ _ _ Hd Hd'). auto.
Qed.
Lemma input_error_fun n d p e e' : input_update_error n d p e -> input_update_error n d p e' -> e = e'.
Proof.
  intros H G.
  destruct H as [H|H1 H2|s Hs H|s u Hs Hu (k & Hk & E)|s u d' Hs Hu Hd Hf H]; try pose proof (spend_at_lt p n s Hs) as [B1 B2];
  destruct G as [G|G1 G2|s' Gs G|s' v Gs Gu (k' & Gk & F)|s' v d'' Gs Gu Gd Gf G]; try pose proof (spend_at_lt p n s' Gs) as [C1 C2]; try lia; try reflexivity.
  - exfalso. rewrite <- (spend_at_fun _ _ _ _ Hs Gs) in Gu. exact (H _ Gu).
  - exfalso. rewrite <- (spend_at_fun _ _ _ _ Hs Gs) in Gu. exact (H _ Gu).
  - exfalso. rewrite (spend_at_fun _ _ _ _ Hs Gs) in Hu. exact (G _ Hu).
  - exfalso. exact (derives_no_hardened d d'' k Gd Hk E).
  - exfalso. rewrite (spend_at_fun _ _ _ _ Hs Gs) in Hu. exact (G _ Hu).
  - exfalso. exact (derives_no_hardened d d' k' Hd Gk F).
Qed.

Lemma update_input_ok (L : ExtLaws X) (LD : DescLaws T) n d p p' : update_input n d p = (p', Ok tt) ->
  exists ti i u d' f', spend_at p n (ti, i) /\ spendable d (ti, i) u /\ derives d d' /\ fits d' /\ to_script u = spk_of d'
    /\ new_fields d' (input_fields i) f' /\ p' = set_p0_inputs (set_nth (N.to_nat n) (input_with_fields f' i) (p0_inputs p)) p.
Proof.
  intros H. destruct (spend_at_dec p n) as [[[ti i] Hs]|Hn].
  - destruct (update_input_cases L LD n d p ti i Hs) as [(u & d' & f' & H1 & H2 & H3 & H4 & H5 & E)|[(e & _ & E)|(u & d' & _ & _ & _ & E)]]; try congruence.
    exists ti, i, u, d', f'. rewrite E in H. injection H as <-. auto 9.
  - destruct (update_input_none n d p Hn) as (e & _ & E). congruence.
Qed.

Lemma update_input_ok_iff (L : ExtLaws X) (LD : DescLaws T) n d p :
  (exists p', update_input n d p = (p', Ok tt)) <->
  exists s u d', spend_at p n s /\ spendable d s u /\ derives d d' /\ fits d' /\ to_script u = spk_of d'.
Proof.
  split.
  - intros (p' & H). destruct (update_input_ok L LD n d p p' H) as (ti & i & u & d' & f' & H1 & H2 & H3 & H4 & H5 & _). exists (ti, i), u, d'. auto.
  - intros ([ti i] & u & d' & Hs & Hu & Hd & Hf & E).
    destruct (update_input_cases L LD n d p ti i Hs) as [(u' & d'' & f' & _ & _ & _ & _ & _ & H)|[(e & He & _)|(u' & d'' & _ & Hd' & Hf' & _)]].
    + eauto.
    + exfalso. destruct (input_error_at n d p e (ti, i) u He Hs Hu d' Hd) as (_ & _ & H). contradiction.
    + rewrite (derives_fun _ _ _ Hd Hd') in Hf. contradiction.
Qed.
Lemma update_input_err_iff (L : ExtLaws X) (LD : DescLaws T) n d p p' e :
  update_input n d p = (p', Err e) <-> p' = p /\ input_update_error n d p e.
Proof.
  assert (G : forall e0, input_update_error n d p e0 -> update_input n d p = (p, Err e0) -> update_input n d p = (p', Err e) <-> p' = p /\ input_update_error n d p e).
  { intros e0 He E. rewrite E. split.
    - intros F. injection F as <- <-. auto.
    - intros [-> He']. now rewrite (input_error_fun _ _ _ _ _ He He'). }
  destruct (spend_at_dec p n) as [[[ti i] Hs]|Hn].
  - destruct (update_input_cases L LD n d p ti i Hs) as [(u & d' & f' & H1 & H2 & H3 & H4 & H5 & E)|[(e0 & He & E)|(u & d' & Hu & Hd & Hf & E)]].
    + rewrite E. split; [congruence|]. intros [_ He]. exfalso. destruct (input_error_at n d p e (ti, i) u He Hs H1 d' H2) as (_ & _ & H). contradiction.
    + eauto.
    + rewrite E. split; [congruence|]. intros [_ He]. exfalso. destruct (input_error_at n d p e (ti, i) u He Hs Hu d' Hd) as (_ & H & _). contradiction.
  - destruct (update_input_none n d p Hn) as (e0 & He & E). eauto.
Qed.
Lemma update_input_panic_iff (L : ExtLaws X) (LD : DescLaws T) n d p :
  snd (update_input n d p) = Panic <-> exists s u d', spend_at p n s /\ spendable d s u /\ derives d d' /\ ~ fits d'.
Proof.
  split.
  - intros H. destruct (spend_at_dec p n) as [[[ti i] Hs]|Hn].
    + destruct (update_input_cases L LD n d p ti i Hs) as [(u & d' & f' & _ & _ & _ & _ & _ & E)|[(e & _ & E)|(u & d' & Hu & Hd & Hf & E)]];
        try (rewrite E in H; discriminate). exists (ti, i), u, d'. auto.
    + destruct (update_input_none n d p Hn) as (e & _ & E). rewrite E in H. discriminate.
  - intros ([ti i] & u & d' & Hs & Hu & Hd & Hf).
    destruct (update_input_cases L LD n d p ti i Hs) as [(u' & d'' & f' & _ & Hd' & Hf' & _ & _ & _)|[(e & He & _)|(u' & d'' & _ & _ & _ & E)]].
    + rewrite (derives_fun _ _ _ Hd Hd') in Hf. contradiction.
    + exfalso. destruct (input_error_at n d p e (ti, i) u He Hs Hu d' Hd) as (_ & H & _). contradiction.
    + now rewrite E.
Qed.
Lemma fits_dec (d : descr ddkey) : fits d \/ ~ fits d.
Proof. destruct (fits_cases d) as [H|(k & t & -> & H)]; [now left|]. right. cbn [fits]. lia. Qed.

(** ** Outputs *)

Lemma update_output_cases (L : ExtLaws X) (LD : DescLaws T) n d p :
  (exists o u d' f', nth_error (p0_outputs p) (N.to_nat n) = Some o /\ nth_error (tx_output (p0_unsigned_tx p)) (N.to_nat n) = Some u
     /\ derives d d' /\ fits d' /\ to_script u = spk_of d' /\ new_fields d' (output_fields o) f'
     /\ update_output n d p = (set_p0_outputs (set_nth (N.to_nat n) (output_with_fields f' o) (p0_outputs p)) p, Ok tt))
  \/ (exists e, output_update_error n d p e /\ update_output n d p = (p, Err e))
  \/ (exists d', n < blen (p0_outputs p) /\ n < blen (tx_output (p0_unsigned_tx p)) /\ derives d d' /\ ~ fits d' /\ update_output n d p = (p, Panic)).
Proof.
  unfold update_output. destruct (nth_N (p0_outputs p) n) as [o|] eqn:Eo.
  2:{ right. left. eexists. split; [|reflexivity]. apply OEIndex. now apply nth_N_none. }
  assert (B1 : n < blen (p0_outputs p)).
  { destruct (N.lt_ge_cases n (blen (p0_outputs p))) as [Hl|Hl]; [exact Hl|]. apply nth_N_none in Hl. congruence. }
  destruct (nth_N (tx_output (p0_unsigned_tx p)) n) as [u|] eqn:Eu.
  2:{ right. left. eexists. split; [|reflexivity]. apply OEMissing; [exact B1|now apply nth_N_none]. }
  assert (B2 : n < blen (tx_output (p0_unsigned_tx p))).
  { destruct (N.lt_ge_cases n (blen (tx_output (p0_unsigned_tx p)))) as [Hl|Hl]; [exact Hl|]. apply nth_N_none in Hl. congruence. }
  rewrite nth_N_nth in Eo. rewrite nth_N_nth in Eu.
  assert (Hself : set_p0_outputs (set_nth (N.to_nat n) (output_with_fields (output_fields o) o) (p0_outputs p)) p = p).
  { rewrite output_fields_same, (set_nth_self _ _ _ Eo). now destruct p. }
  destruct (derives_cases d) as [[d' Hd]|Hd].
  2:{ rewrite (update_item_err d _ _ Hd), Hself. cbn [map_err bind]. right. left. eexists. split; [|reflexivity].
      apply OEKeys; [assumption|assumption|]. destruct (derive_desc_cases d) as [[d' E]|[_ H]]; [|exact H]. apply derive_desc_ok in E. now apply Hd in E. }
  destruct (fits_dec d') as [Hf|Hf].
  2:{ rewrite (update_item_deep d d' _ _ Hd Hf), Hself. cbn [map_err bind]. right. right. exists d'. auto. }
  destruct (update_item_ok L LD d d' (Some (to_script u)) (output_fields o) Hd Hf) as (f' & Hn & E). rewrite E. cbn [check_fails].
  destruct (bytes_eqb (to_script u) (spk_of d')) eqn:Es; cbn [negb].
  - apply bytes_eqb_eq in Es. left. exists o, u, d', f'. cbn [map_err bind fail_if negb]. auto 8.
  - rewrite Hself. cbn [map_err bind fail_if negb]. right. left. eexists. split; [|reflexivity].
    apply (OEScript n d p u d'); auto. intros Ec. rewrite Ec, bytes_eqb_refl in Es. discriminate.
Qed.
Lemma nth_error_blen {A} (l : list A) n a : nth_error l (N.to_nat n) = Some a -> n < blen l.
Proof. intros H. apply nth_error_Some_lt in H || (pose proof (proj1 (nth_error_Some l (N.to_nat n))) as G; rewrite H in G; specialize (G ltac:(discriminate)); unfold blen; lia). Qed.

Lemma output_error_at n d p e : output_update_error n d p e -> n < blen (p0_outputs p) -> n < blen (tx_output (p0_unsigned_tx p)) ->
  forall d', derives d d' -> e = OUMismatchedScriptPubkey /\ fits d'
    /\ forall u, nth_error (tx_output (p0_unsigned_tx p)) (N.to_nat n) = Some u -> to_script u <> spk_of d'.
Proof.
  intros He B1 B2 d' Hd. destruct He as [H|H1 H2|_ _ (k & Hk & E)|u d'' _ Hu Hd' Hf H]; try lia.
  - exfalso. exact (derives_no_hardened d d' k Hd Hk E).
  - rewrite (derives_fun _ _ _ Hd Hd'). split; [reflexivity|]. split; [exact Hf|]. intros u' Hu'. rewrite Hu in Hu'. now injection Hu' as <-.
Qed.
Lemma output_error_fun n d p e e' : output_update_error n d p e -> output_update_error n d p e' -> e = e'.
Proof.
  intros H G.
  destruct H as [H|H1 H2|H1 H2 (k & Hk & E)|u d' H1 Hu Hd Hf H]; try pose proof (nth_error_blen _ _ _ Hu) as B;
  destruct G as [G|G1 G2|G1 G2 (k' & Gk & F)|v d'' G1 Gu Gd Gf G]; try pose proof (nth_error_blen _ _ _ Gu) as C; try lia; try reflexivity.
  - exfalso. exact (derives_no_hardened d d'' k Gd Hk E).
  - exfalso. exact (derives_no_hardened d d' k' Hd Gk F).
Qed.
Lemma update_output_ok (L : ExtLaws X) (LD : DescLaws T) n d p p' : update_output n d p = (p', Ok tt) ->
  exists o u d' f', nth_error (p0_outputs p) (N.to_nat n) = Some o /\ nth_error (tx_output (p0_unsigned_tx p)) (N.to_nat n) = Some u
    /\ derives d d' /\ fits d' /\ to_script u = spk_of d' /\ new_fields d' (output_fields o) f'
    /\ p' = set_p0_outputs (set_nth (N.to_nat n) (output_with_fields f' o) (p0_outputs p)) p.
Proof.
  intros H. destruct (update_output_cases L LD n d p) as [(o & u & d' & f' & H1 & H2 & H3 & H4 & H5 & H6 & E)|[(e & _ & E)|(d' & _ & _ & _ & _ & E)]]; try congruence.
  exists o, u, d', f'. rewrite E in H. injection H as <-. auto 9.
Qed.
Lemma update_output_ok_iff (L : ExtLaws X) (LD : DescLaws T) n d p :
  (exists p', update_output n d p = (p', Ok tt)) <->
  n < blen (p0_outputs p) /\ exists u d', nth_error (tx_output (p0_unsigned_tx p)) (N.to_nat n) = Some u /\ derives d d' /\ fits d' /\ to_script u = spk_of d'.
Proof.
  split.
  - intros (p' & H). destruct (update_output_ok L LD n d p p' H) as (o & u & d' & f' & H1 & H2 & H3 & H4 & H5 & _).
    split; [now apply nth_error_blen in H1|]. exists u, d'. auto.
  - intros (B & u & d' & Hu & Hd & Hf & E). pose proof (nth_error_blen _ _ _ Hu) as B2.
    destruct (update_output_cases L LD n d p) as [(o & v & d'' & f' & _ & _ & _ & _ & _ & _ & H)|[(e & He & _)|(d'' & _ & _ & Hd' & Hf' & _)]].
    + eauto.
    + exfalso. destruct (output_error_at n d p e He B B2 d' Hd) as (_ & _ & H). exact (H u Hu E).
    + rewrite (derives_fun _ _ _ Hd Hd') in Hf. contradiction.
Qed.
Lemma update_output_err_iff (L : ExtLaws X) (LD : DescLaws T) n d p p' e :
  update_output n d p = (p', Err e) <-> p' = p /\ output_update_error n d p e.
Proof.
  destruct (update_output_cases L LD n d p) as [(o & u & d' & f' & H1 & H2 & H3 & H4 & H5 & H6 & E)|[(e0 & He & E)|(d' & B1 & B2 & Hd & Hf & E)]]; rewrite E.
  - split; [congruence|]. intros [_ He]. exfalso.
    destruct (output_error_at n d p e He (nth_error_blen _ _ _ H1) (nth_error_blen _ _ _ H2) d' H3) as (_ & _ & H). exact (H u H2 H5).
  - split.
    + intros F. injection F as <- <-. auto.
    + intros [-> He']. now rewrite (output_error_fun _ _ _ _ _ He He').
  - split; [congruence|]. intros [_ He]. exfalso. destruct (output_error_at n d p e He B1 B2 d' Hd) as (_ & H & _). contradiction.
Qed.
Lemma update_output_panic_iff (L : ExtLaws X) (LD : DescLaws T) n d p :
  snd (update_output n d p) = Panic <-> n < blen (p0_outputs p) /\ n < blen (tx_output (p0_unsigned_tx p)) /\ exists d', derives d d' /\ ~ fits d'.
Proof.
  destruct (update_output_cases L LD n d p) as [(o & u & d' & f' & H1 & H2 & H3 & H4 & H5 & H6 & E)|[(e0 & He & E)|(d' & B1 & B2 & Hd & Hf & E)]];
    rewrite E; cbn [snd].
  - split; [discriminate|]. intros (_ & _ & d'' & Hd & Hf). rewrite (derives_fun _ _ _ Hd H3) in Hf. contradiction.
  - split; [discriminate|]. intros (B1 & B2 & d' & Hd & Hf). destruct (output_error_at n d p e0 He B1 B2 d' Hd) as (_ & H & _). contradiction.
  - split; [eauto|reflexivity].
Qed.

(** ** Twice *)

Lemma sources_again l old new new' : m_sorted bkey new -> m_sorted bkey new' -> sources_after l old new -> sources_after l new new' -> new' = new.
Proof.
  intros S1 S2 H1 H2. apply (m_ext bkey bkey_inj); [exact S2|exact S1|]. intros pk.
  assert (G : forall src, m_get bkey pk new' = Some src <-> m_get bkey pk new = Some src).
  { intros src. rewrite (H2 pk src). split.
    - intros [H|[_ H]]; [|exact H]. apply H1. now left.
    - intros H. pose proof H as H0. apply H1 in H0 as [H0|[H0 _]]; [now left|]. right. auto. }
  destruct (m_get bkey pk new') as [a|] eqn:E1, (m_get bkey pk new) as [b|] eqn:E2; auto.
  - symmetry. now apply G.
  - symmetry. now apply G.
  - now apply G.
Qed.
Lemma origins_again ik tree old new new' : m_sorted bkey new -> m_sorted bkey new' -> origins_after ik tree old new -> origins_after ik tree new new' -> new' = new.
Proof.
  intros S1 S2 H1 H2. apply (m_ext bkey bkey_inj); [exact S2|exact S1|]. intros x.
  assert (G : forall o, m_get bkey x new = Some o -> m_get bkey x new' = Some o).
  { intros o H. apply H2. pose proof H as H0. apply H1 in H0. destruct H0 as [hs E A I|hs0 hs src E G A I|hs src E G A I F].
    - now apply OriginInternal.
    - apply (OriginOld ik tree new x hs hs src E H A). intros h. rewrite I. tauto.
    - apply (OriginOld ik tree new x hs hs src E H A). intros h. rewrite I. tauto. }
  destruct (m_get bkey x new) as [b|] eqn:E2; [now apply G|].
  destruct (m_get bkey x new') as [a|] eqn:E1; [|reflexivity]. exfalso.
  apply H2 in E1. destruct E1 as [hs E A I|hs0 hs src E G' A I|hs src E G' A I F]; [|congruence|].
  - assert (K : m_get bkey x new = Some (hs, snd ik)) by (apply H1; now apply OriginInternal). congruence.
  - destruct (m_get bkey x old) as [[hs0 src0]|] eqn:E3.
    + assert (K : m_get bkey x new = Some (tidy (hs0 ++ hs), src0)).
      { apply H1. apply (OriginOld ik tree old x hs0 _ src0 E E3); [apply tidy_ascending|]. intros h. rewrite tidy_in, in_app_iff, I. reflexivity. }
      congruence.
    + assert (K : m_get bkey x new = Some (hs, src)) by (apply H1; now apply OriginLeaf). congruence.
Qed.
Lemma scripts_fold_indep ik info ss cb : (exists s, In s ss /\ control_block ik info s = Some cb) -> forall m m',
  m_get sk_controlblock cb (scripts_fold ik info ss m) = m_get sk_controlblock cb (scripts_fold ik info ss m').
Proof.
  induction ss as [|s r IH] using rev_ind; [intros (s & [] & _)|]. intros (s' & Hin & E) m m'.
  unfold scripts_fold. rewrite !fold_left_app. cbn [fold_left]. fold (scripts_fold ik info r m). fold (scripts_fold ik info r m').
  apply in_app_iff in Hin. destruct (control_block ik info s) as [c|] eqn:Ec.
  - destruct (controlblock_dec cb c) as [->|Hne].
    + now rewrite !(m_get_put_eq sk_controlblock sk_controlblock_inj).
    + rewrite !(m_get_put_neq sk_controlblock sk_controlblock_inj) by exact Hne. apply IH. destruct Hin as [Hin|[<-|[]]]; [eauto|congruence].
  - apply IH. destruct Hin as [Hin|[<-|[]]]; [eauto|congruence].
Qed.
Lemma scripts_again ik info ss m : m_sorted sk_controlblock m -> scripts_fold ik info ss (scripts_fold ik info ss m) = scripts_fold ik info ss m.
Proof.
  intros S. apply (m_ext sk_controlblock sk_controlblock_inj); [now apply scripts_fold_sorted, scripts_fold_sorted|now apply scripts_fold_sorted|]. intros cb.
  pose proof (scripts_fold_get ik info ss (scripts_fold ik info ss m) cb) as G.
  destruct (m_get sk_controlblock cb (scripts_fold ik info ss (scripts_fold ik info ss m))) as [[s v]|] eqn:E.
  - destruct G as [(Ev & Hin & Hc)|[_ H]]; [|congruence]. rewrite <- E. apply scripts_fold_indep. eauto.
  - symmetry. apply G.
Qed.

(** The maps of the fields are sorted. *)
Record sorted_fields (f : fields) : Prop := {
  sf_bip32 : m_sorted bkey (f_bip32_derivation f);
  sf_origins : m_sorted bkey (f_tap_key_origins f);
  sf_scripts : forall m, f_tap_scripts f = Some m -> m_sorted sk_controlblock m
}.
Lemma info_fun tree info info' : info_of tree info -> info_of tree info' -> info = info'.
Proof.
  destruct tree; cbn [info_of]; [|congruence]. intros (n & -> & E) (n' & -> & E'). congruence.
Qed.
Lemma new_fields_sorted d f f' : sorted_fields f -> new_fields d f f' -> sorted_fields f'.
Proof.
  intros [H1 H2 H3].
  assert (G : sorted_fields (plain_fields d f)).
  { split; cbn [plain_fields f_bip32_derivation f_tap_key_origins f_tap_scripts]; auto. apply (m_extend_is_sorted bkey bkey_inj). exact H1. }
  destruct d; cbn [new_fields]; try (intros ->; exact G).
  intros (info & Hi & ->). split; cbn [tr_fields f_bip32_derivation f_tap_key_origins f_tap_scripts].
  - exact H1.
  - now apply new_origins_sorted.
  - intros m E. destruct (f_tap_scripts f) as [m0|] eqn:E0; cbn [option_map] in E; [|discriminate]. injection E as <-. apply scripts_fold_sorted. auto.
Qed.
Lemma new_fields_again d f f' f'' : sorted_fields f -> new_fields d f f' -> new_fields d f' f'' -> f'' = f'.
Proof.
  intros S N1 N2. pose proof (new_fields_sorted d f f' S N1) as S'. pose proof (new_fields_sorted d f' f'' S' N2) as S''.
  assert (G : f' = plain_fields d f -> f'' = plain_fields d f' -> f'' = f').
  { intros -> ->. unfold plain_fields at 1. cbn [plain_fields f_redeem_script f_witness_script f_bip32_derivation f_tap_internal_key f_tap_key_origins f_tap_tree f_tap_scripts f_tap_merkle_root].
    unfold plain_fields. f_equal.
    - now destruct (redeem_of d).
    - now destruct (witness_of d).
    - eapply (sources_again (all_keys d) (f_bip32_derivation f)); [| |apply sources_extend|apply sources_extend].
      + apply (m_extend_is_sorted bkey bkey_inj). apply S.
      + apply (m_extend_is_sorted bkey bkey_inj). apply (m_extend_is_sorted bkey bkey_inj). apply S. }
  destruct d as [keys s|k|k|keys s|keys s|k|keys s|k tree]; cbn [new_fields] in N1, N2; try (apply G; assumption).
  clear G. destruct N1 as (info & I1 & ->), N2 as (info' & I2 & ->). rewrite (info_fun _ _ _ I2 I1) in *. clear info' I2.
  unfold tr_fields. cbn [f_redeem_script f_witness_script f_bip32_derivation f_tap_internal_key f_tap_key_origins f_tap_tree f_tap_scripts f_tap_merkle_root].
  f_equal.
  - eapply (origins_again k tree (f_tap_key_origins f)); [| |apply new_origins_spec|apply new_origins_spec].
    + apply new_origins_sorted. apply S.
    + apply new_origins_sorted, new_origins_sorted. apply S.
  - unfold new_tree. now destruct (f_tap_tree f), tree.
  - destruct (f_tap_scripts f) as [m|] eqn:E; [|reflexivity]. cbn [option_map]. f_equal. apply scripts_again. now apply (sf_scripts _ S).
  - now destruct (f_tap_merkle_root f).
Qed.

End Update.
