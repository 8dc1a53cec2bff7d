(** Facts about the scripts and witnesses that the finalizer builds. *)
From Verif Require Import Base OMap Consensus ConsensusFacts Ext Raw RawFacts TapTree Serialize SerializeFacts MapCodec V2Global V2Input V2Output
  SpecCodec SpecPsbt V2Psbt V2Roles SpecRoles V2RolesFacts Script V2Sign SpecSign V2SignFacts V2Finalize SpecFinalize V2FinalizeFacts.
Local Open Scope N_scope.

Section Facts.
Context `{X : Ext} `{L : !ExtLaws X} `{C : Cfg} `{M : MsExt}.

Lemma hash160_len b : length (hash160 b) = 20%nat.
Proof. apply ripemd160_len. Qed.

(** ** Script templates *)

Lemma last_split {A} (l : list A) n d : length l = Datatypes.S n -> l = firstn n l ++ [nth n l d].
Proof.
  intros H. rewrite <- (firstn_skipn n l) at 1. f_equal. assert (Hl : length (skipn n l) = 1%nat) by (rewrite skipn_length; lia).
  replace (nth n l d) with (nth 0 (skipn n l) d).
  - destruct (skipn n l) as [|x [|]]; try discriminate Hl. reflexivity.
  - rewrite <- (firstn_skipn n l) at 2. rewrite app_nth2; rewrite firstn_length; [|lia]. f_equal. lia.
Qed.

Lemma is_p2pk_iff s : is_p2pk s = true <-> exists k, (length k = 33%nat \/ length k = 65%nat) /\ s = n2b (blen k) :: k ++ [xac].
Proof.
  unfold is_p2pk, byte_at, blen. split.
  - rewrite orb_true_iff, !andb_true_iff, !beq_eq, !N.eqb_eq. intros [[[Hl H0] H1]|[[Hl H0] H1]];
      destruct s as [|b r]; cbn [length] in Hl; try lia; cbn [nth] in H0; subst b.
    + exists (firstn 65 r). assert (Hr : length (firstn 65 r) = 65%nat) by (rewrite firstn_length; lia). split; [auto|]. rewrite Hr.
      cbn [nth] in H1. rewrite <- H1. f_equal. apply last_split. lia.
    + exists (firstn 33 r). assert (Hr : length (firstn 33 r) = 33%nat) by (rewrite firstn_length; lia). split; [auto|]. rewrite Hr.
      cbn [nth] in H1. rewrite <- H1. f_equal. apply last_split. lia.
  - intros (k & [Hk|Hk] & ->); cbn [length nth]; rewrite app_length, Hk; cbn [length].
    + change (N.of_nat 33) with 33. rewrite orb_true_iff. right. rewrite app_nth2; rewrite Hk; [reflexivity|lia].
    + change (N.of_nat 65) with 65. rewrite orb_true_iff. left. rewrite app_nth2; rewrite Hk; [reflexivity|lia].
Qed.
Lemma is_p2pkh_iff s : is_p2pkh s = true <-> exists h, length h = 20%nat /\ s = p2pkh_script h.
Proof.
  unfold is_p2pkh, byte_at, blen, p2pkh_script. rewrite !andb_true_iff, !beq_eq, N.eqb_eq. split.
  - intros (((((Hl & H0) & H1) & H2) & H3) & H4). destruct s as [|b0 [|b1 [|b2 r]]]; cbn [length] in Hl; try lia.
    cbn [nth] in H0, H1, H2, H3, H4. subst. exists (firstn 20 r). split; [rewrite firstn_length; lia|]. cbn [app]. do 3 f_equal.
    rewrite <- (firstn_skipn 20 r) at 1. f_equal. assert (Hs : length (skipn 20 r) = 2%nat) by (rewrite skipn_length; lia).
    replace (nth 20 r x00) with (nth 0 (skipn 20 r) x00) in H3 by (rewrite <- (firstn_skipn 20 r) at 2; rewrite app_nth2; rewrite firstn_length; [f_equal; lia|lia]).
    replace (nth 21 r x00) with (nth 1 (skipn 20 r) x00) in H4 by (rewrite <- (firstn_skipn 20 r) at 2; rewrite app_nth2; rewrite firstn_length; [f_equal; lia|lia]).
    destruct (skipn 20 r) as [|x [|y [|]]]; try discriminate Hs. cbn [nth] in *. now subst.
  - intros (h & Hh & ->). cbn [app length nth]. rewrite app_length, Hh. rewrite !app_nth2; rewrite Hh; try lia. cbn. auto 10.
Qed.

Lemma p2pk_length s : is_p2pk s = true -> length s = 35%nat \/ length s = 67%nat.
Proof. rewrite is_p2pk_iff. intros (k & [H|H] & ->); cbn [length]; rewrite app_length; cbn; lia. Qed.
Lemma p2pkh_length s : is_p2pkh s = true -> length s = 25%nat.
Proof. rewrite is_p2pkh_iff. intros (k & H & ->). unfold p2pkh_script. cbn [app length]. rewrite app_length; cbn; lia. Qed.
Lemma p2wpkh_length s : is_p2wpkh s = true -> length s = 22%nat.
Proof. rewrite is_p2wpkh_iff. intros (h & (-> & _) & H). unfold program_script. cbn [length]. lia. Qed.
Lemma p2wsh_length s : is_p2wsh s = true -> length s = 34%nat.
Proof. rewrite is_p2wsh_iff. intros (h & (-> & _) & H). unfold program_script. cbn [length]. lia. Qed.
Lemma p2tr_length s : is_p2tr s = true -> length s = 34%nat.
Proof. rewrite is_p2tr_iff. intros (h & (-> & _) & H). unfold program_script. cbn [length]. lia. Qed.
Lemma p2sh_length s : is_p2sh s = true -> length s = 23%nat.
Proof. rewrite is_p2sh_iff. intros (h & H & ->). unfold p2sh_script. cbn [app length]. rewrite app_length. cbn. lia. Qed.
Lemma p2wsh_not_tr s : is_p2wsh s = true -> is_p2tr s = false.
Proof.
  intros H. apply is_p2tr_false. intros [k [Hk _]]. apply is_p2wsh_iff in H as (h & Hh & _).
  destruct (program_inj _ _ _ _ _ Hh Hk). discriminate.
Qed.

Lemma p2wpkh_of_program k : p2wpkh_of k = program_script 0 (hash160 (ser_pubkey k)).
Proof. unfold p2wpkh_of, pubkey_hash, program_script, blen. now rewrite hash160_len. Qed.
Lemma p2pkh_of_script k : p2pkh_of k = p2pkh_script (hash160 (ser_pubkey k)).
Proof. reflexivity. Qed.
Lemma to_p2sh_script s : to_p2sh s = p2sh_script (hash160 s).
Proof. reflexivity. Qed.
Lemma to_p2wsh_program s : to_p2wsh s = program_script 0 (sha256 s).
Proof. unfold to_p2wsh, program_script, blen. now rewrite sha256_len. Qed.
Lemma wpkh_program h : length h = 20%nat -> is_p2wpkh (program_script 0 h) = true.
Proof. intros H. apply is_p2wpkh_iff. exists h. split; [|assumption]. split; [reflexivity|]. unfold blen. lia. Qed.
Lemma wsh_program h : length h = 32%nat -> is_p2wsh (program_script 0 h) = true.
Proof. intros H. apply is_p2wsh_iff. exists h. split; [|assumption]. split; [reflexivity|]. unfold blen. lia. Qed.
Lemma program_script_inj v h h' : program_script v h = program_script v h' -> h = h'.
Proof. unfold program_script. congruence. Qed.
Lemma p2sh_script_inj h h' : p2sh_script h = p2sh_script h' -> h = h'.
Proof. unfold p2sh_script. cbn [app]. intros H. injection H as H. now apply app_inv_tail in H. Qed.
Lemma p2pkh_script_inj h h' : p2pkh_script h = p2pkh_script h' -> h = h'.
Proof. unfold p2pkh_script. cbn [app]. intros H. injection H as H. now apply app_inv_tail in H. Qed.

Lemma not_by_length (f : bytes -> bool) s n : (f s = true -> length s = n) -> length s <> n -> f s = false.
Proof. destruct (f s); auto. intros H H'. specialize (H eq_refl). congruence. Qed.

(** ** Serialized keys and signatures *)

Lemma ser_pubkey_length k : wf_pubkey k -> length (ser_pubkey k) = 33%nat \/ length (ser_pubkey k) = 65%nat.
Proof.
  intros H. unfold wf_pubkey, wf_secp in H. unfold ser_pubkey. destruct (pub_compressed k).
  - left. eapply secp_parse_len; eauto.
  - right. now apply secp_uncompress_len.
Qed.
Lemma ser_esig_length s : wf_esig s -> (length (ser_esig s) <= 73)%nat.
Proof.
  intros [H _]. unfold ser_esig. apply der_parse_len in H. rewrite app_length. cbn. lia.
Qed.
Lemma push_short b : (length b < 76)%nat -> push_slice b = n2b (blen b) :: b.
Proof. intros H. unfold push_slice. replace (blen b <? 76) with true; [reflexivity|]. unfold blen. lia. Qed.

(** ** Keys of hashes *)

Lemma known_keys_hash inputs h k : In (h, k) (known_keys inputs) -> h = hash160 (ser_pubkey k).
Proof.
  unfold known_keys. set (P := fun e : bytes * pubkey => fst e = hash160 (ser_pubkey (snd e))).
  assert (H1 : forall (l : list (bytes * keysource)) acc, Forall P acc ->
    Forall P (fold_left (fun acc e => m_put bkey (pubkey_hash (PubKey true (fst e))) (PubKey true (fst e)) acc) l acc)).
  { induction l as [|e l IH]; intros acc Ha; cbn [fold_left]; [assumption|]. apply IH. apply m_put_forall; [assumption|]. reflexivity. }
  assert (H2 : forall l acc, Forall P acc -> Forall P (fold_left (fun acc i =>
    fold_left (fun acc e => m_put bkey (pubkey_hash (PubKey true (fst e))) (PubKey true (fst e)) acc)
      (in_bip32_derivations i) acc) l acc)).
  { induction l as [|i l IH]; intros acc Ha; cbn [fold_left]; [assumption|]. apply IH, H1, Ha. }
  specialize (H2 inputs [] (Forall_nil _)). rewrite Forall_forall in H2. intros H. exact (H2 _ H).
Qed.
Lemma tap_key_map_hash i h k : In (h, k) (tap_key_map i) -> h = hash160 k.
Proof.
  unfold tap_key_map. set (P := fun e : bytes * bytes => fst e = hash160 (snd e)).
  assert (H1 : forall (l : list (bytes * (list bytes * keysource))) acc, Forall P acc ->
    Forall P (fold_left (fun acc e => m_put bkey (hash160 (fst e)) (fst e) acc) l acc)).
  { induction l as [|e l IH]; intros acc Ha; cbn [fold_left]; [assumption|]. apply IH. apply m_put_forall; [assumption|]. reflexivity. }
  specialize (H1 (in_tap_key_origins i) [] (Forall_nil _)). rewrite Forall_forall in H1. intros H. exact (H1 _ H).
Qed.

(** ** Witness sizes *)

Lemma fold_add w : forall a, fold_left (fun acc item => acc + blen item) w a = a + total (map (@blen byte) w).
Proof. induction w as [|b w IH]; intros a; cbn [fold_left map total fold_right]; [unfold total; cbn; lia|]. rewrite IH. unfold total. cbn [fold_right]. lia. Qed.
Lemma wire_metric w : wire_size w = witness_size w + prefix_size w.
Proof.
  unfold wire_size, witness_size, prefix_size, enc_witness, enc_vec. rewrite blen_app, fold_add.
  assert (H : blen (enc_all enc_bytes w) = total (map (@blen byte) w) + total (map (fun item => varint_size (blen item)) w)).
  { induction w as [|b w IH]; [reflexivity|]. cbn [enc_all flat_map]. unfold enc_all in *. cbn [map total fold_right concat].
    rewrite blen_app, IH. unfold enc_bytes. rewrite blen_app. unfold varint_size, total. cbn [fold_right]. lia. }
  rewrite H. unfold varint_size. lia.
Qed.

Lemma leaf_witness_iff i w leaf : In leaf (in_tap_scripts i) ->
  leaf_witness (tap_key_map i) (input_satisfier i) leaf = Some w -> leaf_spend i w.
Proof.
  destruct leaf as [cb [script ver]]. intros Hin. cbn [leaf_witness]. destruct (ver =? 192) eqn:Ev; cbn [negb]; [|discriminate].
  apply N.eqb_eq in Ev. subst ver. destruct (ms_parse CTap script) as [m|] eqn:Em; [|discriminate].
  destruct (ms_satisfy CTap _ _) as [st|] eqn:Es; [|discriminate]. intros H. injection H as <-. exists cb, script, m, st. auto.
Qed.
Lemma leaf_spend_iff i w : leaf_spend i w <-> exists leaf, In leaf (in_tap_scripts i) /\ leaf_witness (tap_key_map i) (input_satisfier i) leaf = Some w.
Proof.
  split.
  - intros (cb & script & m & st & H1 & H2 & H3 & ->). exists (cb, (script, 192)). split; [assumption|]. cbn [leaf_witness]. cbn [N.eqb Pos.eqb negb].
    rewrite H2, H3. reflexivity.
  - intros (leaf & H1 & H2). eapply leaf_witness_iff; eauto.
Qed.

Lemma tap_loop_spec keys s l : forall acc,
  match tap_loop keys s l acc with
  | None => acc = None /\ forall leaf, In leaf l -> leaf_witness keys s leaf = None
  | Some w =>
      (acc = Some w \/ exists leaf, In leaf l /\ leaf_witness keys s leaf = Some w)
      /\ (forall w', acc = Some w' -> witness_size w <= witness_size w')
      /\ forall leaf w', In leaf l -> leaf_witness keys s leaf = Some w' -> witness_size w <= witness_size w'
  end.
Proof.
  induction l as [|leaf l IH]; intros acc; cbn [tap_loop].
  - destruct acc as [w|]; [|split; [reflexivity|intros ? []]]. split; [auto|]. split; [intros w' H; injection H as <-; lia|intros ? ? []].
  - destruct (leaf_witness keys s leaf) as [wl|] eqn:El.
    + destruct acc as [best|].
      * destruct (witness_size best <? witness_size wl) eqn:Ec.
        -- specialize (IH (Some best)). destruct (tap_loop keys s l (Some best)) as [w|]; [|destruct IH; discriminate].
           destruct IH as (H1 & H2 & H3). specialize (H2 best eq_refl). split; [destruct H1 as [H1|(lf & H1 & H1')]; [auto|right; exists lf; cbn; auto]|].
           split; [intros w' H; injection H as <-; assumption|]. intros lf w' [<-|Hin] Hw; [|eauto]. rewrite El in Hw. injection Hw as <-. lia.
        -- specialize (IH (Some wl)). destruct (tap_loop keys s l (Some wl)) as [w|]; [|destruct IH; discriminate].
           destruct IH as (H1 & H2 & H3). specialize (H2 wl eq_refl). split; [right; destruct H1 as [H1|(lf & H1 & H1')]; [injection H1 as <-; exists leaf; cbn; auto|exists lf; cbn; auto]|].
           split; [intros w' H; injection H as <-; lia|]. intros lf w' [<-|Hin] Hw; [|eauto]. rewrite El in Hw. injection Hw as <-. lia.
      * specialize (IH (Some wl)). destruct (tap_loop keys s l (Some wl)) as [w|]; [|destruct IH; discriminate].
        destruct IH as (H1 & H2 & H3). specialize (H2 wl eq_refl). split; [right; destruct H1 as [H1|(lf & H1 & H1')]; [injection H1 as <-; exists leaf; cbn; auto|exists lf; cbn; auto]|].
        split; [discriminate|]. intros lf w' [<-|Hin] Hw; [|eauto]. rewrite El in Hw. injection Hw as <-. lia.
    + specialize (IH acc). destruct (tap_loop keys s l acc) as [w|].
      * destruct IH as (H1 & H2 & H3). split; [destruct H1 as [H1|(lf & H1 & H1')]; [auto|right; exists lf; cbn; auto]|]. split; [assumption|].
        intros lf w' [<-|Hin] Hw; [congruence|eauto].
      * destruct IH as [-> H]. split; [reflexivity|]. intros lf [<-|Hin]; auto.
Qed.

End Facts.
