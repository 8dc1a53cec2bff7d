(** Facts about the scripts and witnesses that the v0 finalizer builds. *)
From Verif Require Import Base OMap Consensus ConsensusFacts Ext Raw RawFacts TapTree Serialize SerializeFacts MapCodec
  SpecCodec SpecPsbt V2Psbt V2Roles SpecRoles V2RolesFacts Script V2Sign SpecSign V2SignFacts V2Finalize SpecFinalize V2FinalizeFacts V2SpendFacts
  V0Error V0Input V0Output V0Psbt SpecPsbt0 SpecExtract0 V0ExtractFacts V0Sign SpecSign0 V0SignFacts V0Finalize SpecFinalize0 V0FinalizeFacts.
Local Open Scope N_scope.

Section Facts.
Context `{X : Ext} `{M : MsExt} `{NM : !MsNmExt M}.

(** What is built, when the output is known. *)
Definition final0 (mall : bool) (p : psbt0) (n : N) (s : txin * input0) (u : txout) : res inputerr0 (witness * bytes) :=
  let st := psbt_input_satisfier (p0_unsigned_tx p) (fst s) (snd s) in
  if is_p2tr (to_script u) then
    w <- construct_tap_witness0 mall (p0_inputs p) (to_script u) (snd s) st ;;
    Ok (w, [])
  else
    d <- get_descriptor0 p n ;;
    ok_or (desc_satisfaction0 mall d st) J0Miniscript.
Lemma build_known mall p n s u : spend_at p n s -> funds0 s u -> build_final mall p n = final0 mall p n s u.
Proof.
  intros Hs Hu. unfold build_final, get_scriptpubkey. rewrite (proj2 (get_utxo_ok p n s u Hs) Hu). cbn [bind].
  destruct s as [t i]. apply spend_at_iff in Hs as [Ht Hi]. rewrite !nth_N_nth, Hi, Ht. reflexivity.
Qed.
Lemma spk_known p n s u : spend_at p n s -> funds0 s u -> get_scriptpubkey p n = Ok (to_script u).
Proof. intros Hs Hu. unfold get_scriptpubkey. now rewrite (proj2 (get_utxo_ok p n s u Hs) Hu). Qed.
Lemma map_known p n s : spend_at p n s -> nth_N (p0_inputs p) n = Some (snd s).
Proof. destruct s as [t i]. intros Hs. apply spend_at_iff in Hs as [_ Hi]. rewrite nth_N_nth. exact Hi. Qed.

Lemma known_keys0_hash inputs h k : In (h, k) (known_keys0 inputs) -> h = hash160 (ser_pubkey k).
Proof.
  unfold known_keys0. set (P := fun e : bytes * pubkey => fst e = hash160 (ser_pubkey (snd e))).
  assert (H1 : forall (l : list (bytes * keysource)) acc, Forall P acc ->
    Forall P (fold_left (fun acc e => m_put bkey (pubkey_hash (PubKey true (fst e))) (PubKey true (fst e)) acc) l acc)).
  { induction l as [|e l IH]; intros acc Ha; cbn [fold_left]; [assumption|]. apply IH. apply m_put_forall; [assumption|]. reflexivity. }
  assert (H2 : forall l acc, Forall P acc -> Forall P (fold_left (fun acc i =>
    fold_left (fun acc e => m_put bkey (pubkey_hash (PubKey true (fst e))) (PubKey true (fst e)) acc)
      (i0_bip32_derivation i) acc) l acc)).
  { induction l as [|i l IH]; intros acc Ha; cbn [fold_left]; [assumption|]. apply IH, H1, Ha. }
  specialize (H2 inputs [] (Forall_nil _)). rewrite Forall_forall in H2. intros H. exact (H2 _ H).
Qed.
Lemma tap_key_map0_hash inputs h k : In (h, k) (tap_key_map0 inputs) -> h = hash160 k.
Proof.
  unfold tap_key_map0. set (P := fun e : bytes * bytes => fst e = hash160 (snd e)).
  assert (H1 : forall (l : list (bytes * taporigin)) acc, Forall P acc ->
    Forall P (fold_left (fun acc e => m_put bkey (hash160 (fst e)) (fst e) acc) l acc)).
  { induction l as [|e l IH]; intros acc Ha; cbn [fold_left]; [assumption|]. apply IH. apply m_put_forall; [assumption|]. reflexivity. }
  assert (H2 : forall l acc, Forall P acc -> Forall P (fold_left (fun acc i =>
    fold_left (fun acc e => m_put bkey (hash160 (fst e)) (fst e) acc) (i0_tap_key_origins i) acc) l acc)).
  { induction l as [|i l IH]; intros acc Ha; cbn [fold_left]; [assumption|]. apply IH, H1, Ha. }
  specialize (H2 inputs [] (Forall_nil _)). rewrite Forall_forall in H2. intros H. exact (H2 _ H).
Qed.

Lemma tap_loop0_spec mall keys s l : forall acc,
  match tap_loop0 mall keys s l acc with
  | None => acc = None /\ forall leaf, In leaf l -> leaf_witness0 mall keys s leaf = None
  | Some w =>
      (acc = Some w \/ exists leaf, In leaf l /\ leaf_witness0 mall keys s leaf = Some w)
      /\ (forall w', acc = Some w' -> witness_size w <= witness_size w')
      /\ forall leaf w', In leaf l -> leaf_witness0 mall keys s leaf = Some w' -> witness_size w <= witness_size w'
  end.
Proof.
  induction l as [|leaf l IH]; intros acc; cbn [tap_loop0].
  - destruct acc as [w|]; [|split; [reflexivity|intros ? []]]. split; [auto|]. split; [intros w' H; injection H as <-; lia|intros ? ? []].
  - destruct (leaf_witness0 mall keys s leaf) as [wl|] eqn:El.
    + destruct acc as [best|].
      * destruct (witness_size best <? witness_size wl) eqn:Ec.
        -- specialize (IH (Some best)). destruct (tap_loop0 mall keys s l (Some best)) as [w|]; [|destruct IH; discriminate].
           destruct IH as (H1 & H2 & H3). specialize (H2 best eq_refl). split; [destruct H1 as [H1|(lf & H1 & H1')]; [auto|right; exists lf; cbn; auto]|].
           split; [intros w' H; injection H as <-; assumption|]. intros lf w' [<-|Hin] Hw; [|eauto]. rewrite El in Hw. injection Hw as <-. lia.
        -- specialize (IH (Some wl)). destruct (tap_loop0 mall keys s l (Some wl)) as [w|]; [|destruct IH; discriminate].
           destruct IH as (H1 & H2 & H3). specialize (H2 wl eq_refl). split; [right; destruct H1 as [H1|(lf & H1 & H1')]; [injection H1 as <-; exists leaf; cbn; auto|exists lf; cbn; auto]|].
           split; [intros w' H; injection H as <-; lia|]. intros lf w' [<-|Hin] Hw; [|eauto]. rewrite El in Hw. injection Hw as <-. lia.
      * specialize (IH (Some wl)). destruct (tap_loop0 mall keys s l (Some wl)) as [w|]; [|destruct IH; discriminate].
        destruct IH as (H1 & H2 & H3). specialize (H2 wl eq_refl). split; [right; destruct H1 as [H1|(lf & H1 & H1')]; [injection H1 as <-; exists leaf; cbn; auto|exists lf; cbn; auto]|].
        split; [discriminate|]. intros lf w' [<-|Hin] Hw; [|eauto]. rewrite El in Hw. injection Hw as <-. lia.
    + specialize (IH acc). destruct (tap_loop0 mall keys s l acc) as [w|].
      * destruct IH as (H1 & H2 & H3). split; [destruct H1 as [H1|(lf & H1 & H1')]; [auto|right; exists lf; cbn; auto]|]. split; [assumption|].
        intros lf w' [<-|Hin] Hw; [congruence|eauto].
      * destruct IH as [-> H]. split; [reflexivity|]. intros lf [<-|Hin]; auto.
Qed.

(** ** Descriptors of single keys *)

Lemma single_descriptor p n s u : spend_at p n s -> funds0 s u -> single_key (i0_redeem_script (snd s)) (to_script u) ->
  is_p2tr (to_script u) = false /\
  forall p', spend_at p' n s -> get_descriptor0 p' n = get_descriptor0 p n.
Proof.
  intros Hs Hu Hk. remember (to_script u) as spk eqn:Espk.
  assert (Hg : forall p', spend_at p' n s -> get_scriptpubkey p' n = Ok spk) by (intros p' H; rewrite Espk; now apply (spk_known p' n s)).
  assert (Hm : forall p', spend_at p' n s -> nth_N (p0_inputs p') n = Some (snd s)) by (intros p' H; now apply map_known).
  destruct Hk as [kb Hkb|h Hh|h Hh|h h' Hh Hr Hh'].
  - set (spk := n2b (blen kb) :: kb ++ [xac]) in *.
    assert (Hl : length spk = 35%nat \/ length spk = 67%nat) by (unfold spk; cbn [length]; rewrite app_length; cbn; lia).
    split; [apply (not_by_length is_p2tr spk 34 (p2tr_length spk)); lia|]. intros p' Hp'. unfold get_descriptor0. cbv zeta. rewrite !Hg, !Hm by assumption. cbn [bind expect].
    rewrite !(proj2 (is_p2pk_iff spk)) by (exists kb; auto). reflexivity.
  - set (spk := p2pkh_script h) in *. assert (Hp : is_p2pkh spk = true) by (apply is_p2pkh_iff; exists h; auto). pose proof (p2pkh_length _ Hp) as Hl.
    split; [apply (not_by_length is_p2tr spk 34 (p2tr_length spk)); lia|]. intros p' Hp'. unfold get_descriptor0. cbv zeta. rewrite !Hg, !Hm by assumption. cbn [bind expect].
    rewrite Hp. reflexivity.
  - set (spk := program_script 0 h) in *. assert (Hp : is_p2wpkh spk = true) by now apply wpkh_program. pose proof (p2wpkh_length _ Hp) as Hl.
    split; [apply (not_by_length is_p2tr spk 34 (p2tr_length spk)); lia|]. intros p' Hp'. unfold get_descriptor0. cbv zeta. rewrite !Hg, !Hm by assumption. cbn [bind expect].
    rewrite Hp. reflexivity.
  - set (spk := p2sh_script h) in *. assert (Hp : is_p2sh spk = true) by (apply is_p2sh_iff; exists h; auto). pose proof (p2sh_length _ Hp) as Hl.
    split; [apply (not_by_length is_p2tr spk 34 (p2tr_length spk)); lia|]. intros p' Hp'. unfold get_descriptor0. cbv zeta. rewrite !Hg, !Hm by assumption. cbn [bind expect].
    rewrite (not_by_length is_p2wsh spk 34 (p2wsh_length spk)) by lia. rewrite Hp, Hr.
    pose proof (wpkh_program h' Hh') as Hw. pose proof (p2wpkh_length _ Hw) as Hwl.
    rewrite (not_by_length is_p2wsh (program_script 0 h') 34 (p2wsh_length _)), Hw by lia. reflexivity.
Qed.

End Facts.
