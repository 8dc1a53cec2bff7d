(** C53, C67, C68, C78 for v0: what the satisfier offers, and the scripts and witnesses that the v0
    finalizer builds (src/v0/miniscript/finalizer.rs, src/v0/miniscript/mod.rs:257-366). *)
From Coq Require Import Sorted.
From Verif Require Import Base OMap Consensus ConsensusFacts Ext ExtInstance Raw RawFacts TapTree Serialize SerializeFacts MapCodec
  V2Global V2Input V2Output V2Psbt SpecCodec SpecPsbt V2PsbtFacts V2WireFacts V2Roles SpecRoles V2RolesFacts
  Script SighashType V2Sign SignInstance SpecSign V2SignFacts SampleV2 V2Finalize SpecFinalize V2FinalizeFacts MsInstance V2SpendFacts
  V0Error V0Input V0Output V0Psbt SpecPsbt0 V0PsbtFacts V0WireFacts SampleV0 PropertiesV0Codec SpecExtract0 V0ExtractFacts
  V0Sign SchnorrInstance SpecSign0 V0SignFacts PropertiesV0Sign V0Finalize SpecFinalize0 V0FinalizeFacts V0SpendFacts MsInstance0 PropertiesV0Finalize.
Local Open Scope N_scope.

(** Used by the examples only; the theorems bind their own. *)
#[local] Existing Instance toy | 100.
#[local] Existing Instance toy_sign | 100.
#[local] Existing Instance toy_schnorr | 100.
#[local] Existing Instance toy_ms0 | 100.
#[local] Existing Instance toy_nm | 100.

(** The witnesses for the leaves of an input, with the keys of the origins of all inputs. *)
Definition leaf_spend0 `{X : Ext} `{M : MsExt} `{NM : !MsNmExt M} (mall : bool) (p : psbt0) (s : txin * input0) (w : witness) : Prop :=
  exists cb script m st,
    In (cb, (script, 192)) (i0_tap_scripts (snd s)) /\ ms_parse CTap script = Some m /\
    (if mall then ms_satisfy else ms_satisfy_nm) CTap (ms_substitute_tap (tap_key_map0 (p0_inputs p)) m)
      (psbt_input_satisfier (p0_unsigned_tx p) (fst s) (snd s)) = Some st /\
    w = st ++ [ms_encode (ms_substitute_tap (tap_key_map0 (p0_inputs p)) m); ser_controlblock cb].
Lemma leaf_witness0_iff `{X : Ext} `{M : MsExt} `{NM : !MsNmExt M} mall p s w leaf : In leaf (i0_tap_scripts (snd s)) ->
  leaf_witness0 mall (tap_key_map0 (p0_inputs p)) (psbt_input_satisfier (p0_unsigned_tx p) (fst s) (snd s)) leaf = Some w -> leaf_spend0 mall p s w.
Proof.
  destruct leaf as [cb [script ver]]. intros Hin. cbn [leaf_witness0]. destruct (ver =? 192) eqn:Ev; cbn [negb]; [|discriminate].
  apply N.eqb_eq in Ev. subst ver. destruct (ms_parse CTap script) as [m|] eqn:Em; [|discriminate]. unfold satisfy0.
  destruct ((if mall then ms_satisfy else ms_satisfy_nm) CTap _ _) as [st|] eqn:Es; [|discriminate]. intros H. injection H as <-. exists cb, script, m, st. auto.
Qed.
Lemma leaf_spend0_iff `{X : Ext} `{M : MsExt} `{NM : !MsNmExt M} mall p s w : leaf_spend0 mall p s w <->
  exists leaf, In leaf (i0_tap_scripts (snd s)) /\ leaf_witness0 mall (tap_key_map0 (p0_inputs p)) (psbt_input_satisfier (p0_unsigned_tx p) (fst s) (snd s)) leaf = Some w.
Proof.
  split.
  - intros (cb & script & m & st & H1 & H2 & H3 & ->). exists (cb, (script, 192)). split; [assumption|]. cbn [leaf_witness0]. cbn [N.eqb Pos.eqb negb].
    unfold satisfy0. rewrite H2, H3. reflexivity.
  - intros (leaf & H1 & H2). eapply leaf_witness0_iff; eauto.
Qed.

(** ** C67: outputs of a single key *)

Lemma find_sig0 (f : pubkey * esig -> bool) l k s :
  m_sorted sk_pubkey l -> find f l = Some (k, s) -> m_get sk_pubkey k l = Some s /\ In (k, s) l /\ f (k, s) = true.
Proof. intros Hs H. apply find_some in H as [H1 H2]. split; [now apply m_in_get|]. auto. Qed.

(** What is built for an output of a single key is a signature of the input under that key, with
    the key where it is needed, in the place where it is needed. *)
Theorem C67_v0_sound : forall (X : Ext) (L : ExtLaws X) (M : MsExt) (NM : MsNmExt M) (ML : MsLaws X M) mall p n ti i u ss w,
  wf_input0 i -> spend_at p n (ti, i) -> funds0 (ti, i) u -> single_key (i0_redeem_script i) (to_script u) ->
  (forall k s, In (k, s) (i0_partial_sigs i) -> (4 < length (ser_esig s))%nat) ->
  built mall p n w ss ->
  exists k s, In (k, s) (i0_partial_sigs i) /\ key_spend k s (to_script u) ss w.
Proof.
  intros X L M NM ML mall p n ti i u ss w Hwf Hsp Hu Hk Hsz H. destruct (wi0_partial_sigs _ Hwf) as [Hso Hall]. rewrite Forall_forall in Hall.
  unfold built in H. rewrite (build_known mall p n (ti, i) u Hsp Hu) in H. unfold final0 in H. cbv zeta in H. cbn [fst snd] in H.
  unfold get_descriptor0 in H. cbv zeta in H. rewrite (spk_known p n (ti, i) u Hsp Hu), (map_known p n (ti, i) Hsp) in H. cbn [bind expect snd] in H. destruct Hk as [kb Hkb|h Hh|h Hh|h h' Hh Hr Hh'].
  - set (spk := n2b (blen kb) :: kb ++ [xac]) in *.
    assert (Hl : length spk = 35%nat \/ length spk = 67%nat) by (unfold spk; cbn [length]; rewrite app_length; cbn; lia).
    rewrite (not_by_length is_p2tr spk 34 (p2tr_length spk)) in H by lia. cbn [bind] in H.
    rewrite (proj2 (is_p2pk_iff spk)) in H by (exists kb; auto).
    replace (removelast (tl spk)) with kb in H by (unfold spk; cbn [tl]; symmetry; apply removelast_last).
    destruct (de_pubkey kb) as [k| |] eqn:Ek; cbn [bind] in H; try discriminate. cbn [desc_satisfaction0 sat_ecdsa psbt_input_satisfier] in H.
    destruct (m_get sk_pubkey k (i0_partial_sigs i)) as [s|] eqn:Eg; cbn [option_map ok_or bind] in H; [|discriminate]. injection H as <- <-.
    apply (m_get_in sk_pubkey sk_pubkey_inj) in Eg. exists k, s. split; [assumption|].
    apply pubkey_canonical in Ek. unfold spk. rewrite Ek. apply KSPk. apply ms_script_sig_push.
    destruct (Hall _ Eg) as [_ Hs]. apply ser_esig_length in Hs. specialize (Hsz k s Eg). cbn [snd] in Hs. lia.
  - set (spk := p2pkh_script h) in *. assert (Hp : is_p2pkh spk = true) by (apply is_p2pkh_iff; exists h; auto). pose proof (p2pkh_length _ Hp) as Hl.
    rewrite (not_by_length is_p2tr spk 34 (p2tr_length spk)) in H by lia. cbn [bind] in H.
    destruct (is_p2pk spk) eqn:Ep. { apply p2pk_length in Ep. lia. } rewrite Hp in H.
    destruct (find _ (i0_partial_sigs i)) as [[k s]|] eqn:Ef; cbn [bind] in H; [|discriminate].
    apply (find_sig0 _ _ _ _ Hso) in Ef as (Hg & Hin & Hf). cbn [desc_satisfaction0 sat_ecdsa psbt_input_satisfier] in H. rewrite Hg in H. cbn [option_map ok_or bind] in H.
    injection H as <- <-. exists k, s. split; [assumption|]. cbn [fst] in Hf. apply bytes_eqb_eq in Hf. rewrite Hf, p2pkh_of_script. apply KSPkh.
    destruct (Hall _ Hin) as [Hk Hs]. cbn [fst snd] in Hk, Hs. apply ser_esig_length in Hs. apply ser_pubkey_length in Hk. rewrite !push_short by lia. reflexivity.
  - set (spk := program_script 0 h) in *. assert (Hp : is_p2wpkh spk = true) by now apply wpkh_program. pose proof (p2wpkh_length _ Hp) as Hl.
    rewrite (not_by_length is_p2tr spk 34 (p2tr_length spk)) in H by lia. cbn [bind] in H.
    destruct (is_p2pk spk) eqn:Ep. { apply p2pk_length in Ep. lia. } rewrite (not_by_length is_p2pkh spk 25 (p2pkh_length spk)) in H by lia. rewrite Hp in H.
    unfold find_wpkh0 in H. destruct (find _ (i0_partial_sigs i)) as [[k s]|] eqn:Ef; cbn [bind] in H; [|discriminate].
    apply (find_sig0 _ _ _ _ Hso) in Ef as (Hg & Hin & Hf). cbn [desc_satisfaction0 sat_ecdsa psbt_input_satisfier] in H. rewrite Hg in H. cbn [option_map ok_or bind] in H.
    injection H as <- <-. exists k, s. split; [assumption|]. cbn [fst] in Hf. apply andb_true_iff in Hf as [Hc Hf]. apply bytes_eqb_eq in Hf.
    rewrite Hf, p2wpkh_of_program. now apply KSWpkh.
  - set (spk := p2sh_script h) in *. assert (Hp : is_p2sh spk = true) by (apply is_p2sh_iff; exists h; auto). pose proof (p2sh_length _ Hp) as Hl.
    rewrite (not_by_length is_p2tr spk 34 (p2tr_length spk)) in H by lia. cbn [bind] in H.
    destruct (is_p2pk spk) eqn:Ep. { apply p2pk_length in Ep. lia. } rewrite (not_by_length is_p2pkh spk 25 (p2pkh_length spk)) in H by lia.
    rewrite (not_by_length is_p2wpkh spk 22 (p2wpkh_length spk)) in H by lia. rewrite (not_by_length is_p2wsh spk 34 (p2wsh_length spk)) in H by lia.
    rewrite Hp, Hr in H. destruct (bytes_eqb (to_p2sh (program_script 0 h')) spk) eqn:Er; cbn [negb bind] in H; [|discriminate]. apply bytes_eqb_eq in Er.
    pose proof (wpkh_program h' Hh') as Hw. pose proof (p2wpkh_length _ Hw) as Hwl.
    rewrite (not_by_length is_p2wsh (program_script 0 h') 34 (p2wsh_length _)), Hw in H by lia.
    unfold find_wpkh0 in H. destruct (find _ (i0_partial_sigs i)) as [[k s]|] eqn:Ef; cbn [bind] in H; [|discriminate].
    apply (find_sig0 _ _ _ _ Hso) in Ef as (Hg & Hin & Hf). cbn [desc_satisfaction0 sat_ecdsa psbt_input_satisfier] in H. rewrite Hg in H. cbn [option_map ok_or bind] in H.
    injection H as <- <-. exists k, s. split; [assumption|]. cbn [fst] in Hf. apply andb_true_iff in Hf as [Hc Hf]. apply bytes_eqb_eq in Hf.
    rewrite <- Er, to_p2sh_script, <- Hf. rewrite push_short by (rewrite Hwl; lia). apply KSShWpkh; [assumption|]. rewrite Hf. apply p2wpkh_of_program.
Qed.
Print Assumptions C67_v0_sound.

Lemma find_exists0 {A} (f : A -> bool) l a : In a l -> f a = true -> exists b, find f l = Some b.
Proof.
  intros H1 H2. destruct (find f l) as [b|] eqn:E; [eauto|]. pose proof (find_none f l E a H1). congruence.
Qed.

(** If the input has a signature that can spend the output, something is built. *)
Theorem C67_v0_complete : forall (X : Ext) (L : ExtLaws X) (M : MsExt) (NM : MsNmExt M) mall p n ti i u k s ss w,
  wf_input0 i -> spend_at p n (ti, i) -> funds0 (ti, i) u -> In (k, s) (i0_partial_sigs i) -> key_spend k s (to_script u) ss w ->
  (p2sh (to_script u) -> i0_redeem_script i = Some (program_script 0 (hash160 (ser_pubkey k)))) ->
  exists ss' w', built mall p n w' ss'.
Proof.
  intros X L M NM mall p n ti i u k s ss w Hwf Hsp Hu Hin Hk Hr. destruct (wi0_partial_sigs _ Hwf) as [Hso Hall]. rewrite Forall_forall in Hall.
  pose proof (Hall _ Hin) as [Hwk _]. cbn [fst] in Hwk.
  unfold built. rewrite (build_known mall p n (ti, i) u Hsp Hu). unfold final0. cbv zeta. cbn [fst snd].
  unfold get_descriptor0. cbv zeta. rewrite (spk_known p n (ti, i) u Hsp Hu), (map_known p n (ti, i) Hsp). cbn [bind expect snd].
  pose proof (hash160_len (ser_pubkey k)) as Hh. remember (to_script u) as spk eqn:Espk. destruct Hk as [ss Hss|ss Hss|Hc|prog Hc Hprog].
  - set (spk := n2b (blen (ser_pubkey k)) :: ser_pubkey k ++ [xac]) in *. pose proof (ser_pubkey_length k Hwk) as Hl.
    assert (Hl' : length spk = 35%nat \/ length spk = 67%nat) by (unfold spk; cbn [length]; rewrite app_length; cbn; lia).
    rewrite (not_by_length is_p2tr spk 34 (p2tr_length spk)) by lia. rewrite (proj2 (is_p2pk_iff spk)) by (exists (ser_pubkey k); auto).
    replace (removelast (tl spk)) with (ser_pubkey k) by (unfold spk; cbn [tl]; symmetry; apply removelast_last).
    rewrite (co_rt _ _ _ _ (pubkey_codec 65 ltac:(lia))) by assumption. cbn [bind desc_satisfaction0 sat_ecdsa psbt_input_satisfier].
    rewrite (m_in_get sk_pubkey k s _ Hso Hin). cbn. eauto.
  - set (spk := p2pkh_script (hash160 (ser_pubkey k))) in *. assert (Hp : is_p2pkh spk = true) by (apply is_p2pkh_iff; eexists; split; [|reflexivity]; assumption). pose proof (p2pkh_length _ Hp) as Hl.
    rewrite (not_by_length is_p2tr spk 34 (p2tr_length spk)) by lia. destruct (is_p2pk spk) eqn:Ep. { apply p2pk_length in Ep. lia. } rewrite Hp.
    destruct (find_exists0 (fun e : pubkey * esig => bytes_eqb spk (p2pkh_of (fst e))) (i0_partial_sigs i) (k, s) Hin) as [[k' s'] Ef].
    { apply bytes_eqb_eq. reflexivity. }
    rewrite Ef. cbn [bind desc_satisfaction0 sat_ecdsa psbt_input_satisfier]. apply (find_sig0 _ _ _ _ Hso) in Ef as (Hg & _ & _). rewrite Hg. cbn. eauto.
  - set (spk := program_script 0 (hash160 (ser_pubkey k))) in *. assert (Hp : is_p2wpkh spk = true) by now apply wpkh_program. pose proof (p2wpkh_length _ Hp) as Hl.
    rewrite (not_by_length is_p2tr spk 34 (p2tr_length spk)) by lia. destruct (is_p2pk spk) eqn:Ep. { apply p2pk_length in Ep. lia. }
    rewrite (not_by_length is_p2pkh spk 25 (p2pkh_length spk)) by lia. rewrite Hp. unfold find_wpkh0.
    destruct (find_exists0 (fun e : pubkey * esig => pub_compressed (fst e) && bytes_eqb spk (p2wpkh_of (fst e))) (i0_partial_sigs i) (k, s) Hin) as [[k' s'] Ef].
    { cbn [fst]. rewrite Hc, p2wpkh_of_program. now apply bytes_eqb_eq. }
    rewrite Ef. cbn [bind desc_satisfaction0 sat_ecdsa psbt_input_satisfier]. apply (find_sig0 _ _ _ _ Hso) in Ef as (Hg & _ & _). rewrite Hg. cbn. eauto.
  - set (spk := p2sh_script (hash160 prog)) in *. assert (Hp2 : p2sh spk) by (exists (hash160 prog); split; [apply hash160_len|reflexivity]).
    assert (Hp : is_p2sh spk = true) by now apply is_p2sh_iff. pose proof (p2sh_length _ Hp) as Hl.
    rewrite (not_by_length is_p2tr spk 34 (p2tr_length spk)) by lia. destruct (is_p2pk spk) eqn:Ep. { apply p2pk_length in Ep. lia. }
    rewrite (not_by_length is_p2pkh spk 25 (p2pkh_length spk)) by lia.
    rewrite (not_by_length is_p2wpkh spk 22 (p2wpkh_length spk)) by lia. rewrite (not_by_length is_p2wsh spk 34 (p2wsh_length spk)) by lia.
    rewrite Hp, (Hr Hp2), <- Hprog. rewrite to_p2sh_script. replace (bytes_eqb (p2sh_script (hash160 prog)) spk) with true by (symmetry; now apply bytes_eqb_eq).
    cbn [negb]. assert (Hw : is_p2wpkh prog = true) by (rewrite Hprog; now apply wpkh_program). pose proof (p2wpkh_length _ Hw) as Hwl.
    rewrite (not_by_length is_p2wsh prog 34 (p2wsh_length _)), Hw by lia. unfold find_wpkh0.
    destruct (find_exists0 (fun e : pubkey * esig => pub_compressed (fst e) && bytes_eqb prog (p2wpkh_of (fst e))) (i0_partial_sigs i) (k, s) Hin) as [[k' s'] Ef].
    { cbn [fst]. rewrite Hc, p2wpkh_of_program, Hprog. now apply bytes_eqb_eq. }
    rewrite Ef. cbn [bind desc_satisfaction0 sat_ecdsa psbt_input_satisfier]. apply (find_sig0 _ _ _ _ Hso) in Ef as (Hg & _ & _). rewrite Hg. cbn. eauto.
Qed.
Print Assumptions C67_v0_complete.

Definition fz_key : bytes := ex0_pk 1.
Definition fz_sig : esig := ESig (sign_ecdsa [x01] (firstn 32 (ex0_pk 1))) 1.
Definition fz_in (spk : bytes) : input0 :=
  set_i0_partial_sigs [(PubKey true fz_key, fz_sig)] (fy_utxo spk input0_default).
Definition fz_fields (mall : bool) (i : input0) : option (witness * bytes) := match build_final mall (ex0_of [i]) 0 with Ok r => Some r | _ => None end.
Definition fz_wpkh_script : bytes := program_script 0 (hash160 fz_key).
Example C67_v0_example :
  let s := ser_esig fz_sig in
  fz_fields false (fz_in ([x21] ++ fz_key ++ [xac])) = Some ([], push_slice s)
  /\ fz_fields false (fz_in (p2pkh_script (hash160 fz_key))) = Some ([], push_slice s ++ [x21] ++ fz_key)
  /\ fz_fields true (fz_in fz_wpkh_script) = Some ([s; fz_key], [])
  /\ fz_fields true (set_i0_redeem_script (Some fz_wpkh_script) (fz_in (p2sh_script (hash160 fz_wpkh_script)))) = Some ([s; fz_key], [x16] ++ fz_wpkh_script)
  /\ (4 < length s)%nat.
Proof. cbv zeta. split; [vm_compute; reflexivity|]. split; [vm_compute; reflexivity|]. split; [vm_compute; reflexivity|]. split; [vm_compute; reflexivity|]. vm_compute. lia. Qed.

(** ** C68: revealed scripts *)

Lemma new_desc0_ok {M : MsExt} c mk m d : new_desc0 c mk m = Ok d -> d = mk m.
Proof. unfold new_desc0. destruct (ms_top_level c m); intros H; [now inj H|discriminate]. Qed.

(** Pay to witness script hash: the last item of the witness is the witness script of the input and
    hashes to the program; nested, the script sig pushes the redeem script, which hashes to the
    script hash. *)
Theorem C68_v0_wsh : forall (X : Ext) (L : ExtLaws X) (M : MsExt) (NM : MsNmExt M) (ML : MsLaws X M) mall p n ti i u h ss w,
  spend_at p n (ti, i) -> funds0 (ti, i) u -> p2wsh_hash (to_script u) h -> built mall p n w ss ->
  ss = [] /\ exists ws st, i0_witness_script i = Some ws /\ sha256 ws = h /\ w = st ++ [ws].
Proof.
  intros X L M NM ML mall p n ti i u h ss w Hsp Hu Hh H. unfold built in H. rewrite (build_known mall p n (ti, i) u Hsp Hu) in H. unfold final0 in H. cbv zeta in H. cbn [fst snd] in H.
  unfold get_descriptor0 in H. cbv zeta in H. rewrite (spk_known p n (ti, i) u Hsp Hu), (map_known p n (ti, i) Hsp) in H. cbn [bind expect snd] in H.
  assert (Hw : is_p2wsh (to_script u) = true) by (apply is_p2wsh_iff; eauto). pose proof (p2wsh_length _ Hw) as Hl.
  rewrite (p2wsh_not_tr _ Hw) in H. destruct (is_p2pk (to_script u)) eqn:Ep. { apply p2pk_length in Ep. lia. }
  rewrite (not_by_length is_p2pkh _ 25 (p2pkh_length _)) in H by lia. rewrite (not_by_length is_p2wpkh _ 22 (p2wpkh_length _)) in H by lia.
  rewrite Hw in H. destruct (is_some (i0_redeem_script i)); cbn [bind] in H; [discriminate|].
  destruct (i0_witness_script i) as [ws|]; cbn [bind] in H; [|discriminate].
  destruct (bytes_eqb (to_p2wsh ws) (to_script u)) eqn:Eq; cbn [negb bind] in H; [|discriminate]. apply bytes_eqb_eq in Eq.
  destruct (ms_parse CSegwitv0 ws) as [m|] eqn:Em; cbn [ok_or bind] in H; [|discriminate].
  destruct (new_desc0 _ _ _) as [d| |] eqn:Ed; cbn [bind] in H; try discriminate. apply new_desc0_ok in Ed. subst d. cbn [desc_satisfaction0] in H.
  destruct (satisfy0 _ _ _ _) as [st|]; cbn [option_map ok_or bind] in H; [|discriminate]. injection H as <- <-. split; [reflexivity|].
  exists ws, st. split; [reflexivity|]. rewrite ms_substitute_encode by (intros h' k; apply known_keys0_hash). rewrite (ms_parse_encode _ _ _ Em).
  split; [|reflexivity]. rewrite to_p2wsh_program in Eq. destruct Hh as [(E & _) _]. rewrite E in Eq. now apply program_script_inj in Eq.
Qed.
Print Assumptions C68_v0_wsh.

Theorem C68_v0_sh : forall (X : Ext) (L : ExtLaws X) (M : MsExt) (NM : MsNmExt M) (ML : MsLaws X M) mall p n ti i u h ss w,
  spend_at p n (ti, i) -> funds0 (ti, i) u -> to_script u = p2sh_script h -> length h = 20%nat -> built mall p n w ss ->
  exists rs, i0_redeem_script i = Some rs /\ hash160 rs = h /\
    ((exists h', p2wpkh_hash rs h' /\ ss = n2b (blen rs) :: rs /\ exists s k, w = [s; k])
     \/ (exists h' ws st, p2wsh_hash rs h' /\ i0_witness_script i = Some ws /\ sha256 ws = h' /\ w = st ++ [ws] /\ ss = n2b (blen rs) :: rs)
     \/ (w = [] /\ ((4 < length rs <= 520)%nat -> exists st, ss = st ++ push_slice rs))).
Proof.
  intros X L M NM ML mall p n ti i u h ss w Hsp Hu Hs Hh H. unfold built in H. rewrite (build_known mall p n (ti, i) u Hsp Hu) in H. unfold final0 in H. cbv zeta in H. cbn [fst snd] in H.
  unfold get_descriptor0 in H. cbv zeta in H. rewrite (spk_known p n (ti, i) u Hsp Hu), (map_known p n (ti, i) Hsp) in H. cbn [bind expect snd] in H.
  assert (Hw : is_p2sh (to_script u) = true) by (apply is_p2sh_iff; exists h; auto). pose proof (p2sh_length _ Hw) as Hl.
  rewrite (not_by_length is_p2tr _ 34 (p2tr_length _)) in H by lia. destruct (is_p2pk (to_script u)) eqn:Ep. { apply p2pk_length in Ep. lia. }
  rewrite (not_by_length is_p2pkh _ 25 (p2pkh_length _)) in H by lia. rewrite (not_by_length is_p2wpkh _ 22 (p2wpkh_length _)) in H by lia.
  rewrite (not_by_length is_p2wsh _ 34 (p2wsh_length _)) in H by lia. rewrite Hw in H.
  destruct (i0_redeem_script i) as [rs|]; cbn [bind] in H; [|discriminate].
  destruct (bytes_eqb (to_p2sh rs) (to_script u)) eqn:Eq; cbn [negb bind] in H; [|discriminate]. apply bytes_eqb_eq in Eq.
  rewrite Hs, to_p2sh_script in Eq. apply p2sh_script_inj in Eq. exists rs. split; [reflexivity|]. split; [assumption|].
  destruct (is_p2wsh rs) eqn:E1.
  - right. left. pose proof (p2wsh_length _ E1) as Hl1. apply is_p2wsh_iff in E1 as [h' Hh']. destruct (i0_witness_script i) as [ws|]; cbn [bind] in H; [|discriminate].
    destruct (bytes_eqb (to_p2wsh ws) rs) eqn:Eq'; cbn [negb bind] in H; [|discriminate]. apply bytes_eqb_eq in Eq'.
    destruct (ms_parse CSegwitv0 ws) as [m|] eqn:Em; cbn [ok_or bind] in H; [|discriminate].
    destruct (new_desc0 _ _ _) as [d| |] eqn:Ed; cbn [bind] in H; try discriminate. apply new_desc0_ok in Ed. subst d. cbn [desc_satisfaction0] in H.
    destruct (satisfy0 _ _ _ _) as [st|]; cbn [option_map ok_or bind] in H; [|discriminate].
    rewrite ms_substitute_encode in H by (intros h2 k; apply known_keys0_hash). rewrite (ms_parse_encode _ _ _ Em) in H.
    assert (E3 : sha256 ws = h').
    { rewrite to_p2wsh_program in Eq'. destruct Hh' as [(E & _) _]. rewrite E in Eq'. now apply program_script_inj in Eq'. }
    rewrite Eq', push_short in H by lia. exists h', ws, st. injection H as <- <-. auto.
  - destruct (is_p2wpkh rs) eqn:E2.
    + left. pose proof (p2wpkh_length _ E2) as Hl2. apply is_p2wpkh_iff in E2 as [h' Hh']. exists h'. split; [assumption|].
      destruct (find_wpkh0 i rs) as [[k s]|] eqn:Ef; cbn [bind] in H; [|discriminate]. apply find_some in Ef as [_ Hf]. cbn [fst] in Hf.
      apply andb_true_iff in Hf as [_ Hf]. apply bytes_eqb_eq in Hf. cbn [desc_satisfaction0 sat_ecdsa psbt_input_satisfier] in H.
      destruct (m_get _ _ _) as [s'|]; cbn [option_map ok_or bind] in H; [|discriminate]. rewrite <- Hf, push_short in H by lia. injection H as <- <-. eauto.
    + right. right. destruct (is_some (i0_witness_script i)); cbn [bind] in H; [discriminate|].
      destruct (ms_parse CLegacy rs) as [m|] eqn:Em; cbn [ok_or bind] in H; [|discriminate].
      destruct (new_desc0 _ _ _) as [d| |] eqn:Ed; cbn [bind] in H; try discriminate. apply new_desc0_ok in Ed. subst d. cbn [desc_satisfaction0] in H.
      destruct (satisfy0 _ _ _ _) as [st|]; cbn [option_map ok_or bind] in H; [|discriminate]. injection H as <- <-. split; [reflexivity|]. intros Hlen.
      rewrite (ms_parse_encode _ _ _ Em). now apply ms_script_sig_last.
Qed.
Print Assumptions C68_v0_sh.

(** Taproot: a key spend is the signature of the input; a script spend ends with a leaf of the
    input and its control block. *)
Theorem C68_v0_taproot : forall (X : Ext) (L : ExtLaws X) (M : MsExt) (NM : MsNmExt M) (ML : MsLaws X M) mall p n ti i u k ss w,
  spend_at p n (ti, i) -> funds0 (ti, i) u -> p2tr_key (to_script u) k -> built mall p n w ss ->
  ss = [] /\
  ((exists sg, i0_tap_key_sig i = Some sg /\ w = [ser_tsig sg])
   \/ i0_tap_key_sig i = None /\ exists cb script st, In (cb, (script, 192)) (i0_tap_scripts i) /\ w = st ++ [script; ser_controlblock cb]).
Proof.
  intros X L M NM ML mall p n ti i u k ss w Hsp Hu Hk H. unfold built in H. rewrite (build_known mall p n (ti, i) u Hsp Hu) in H. unfold final0 in H. cbv zeta in H. cbn [fst snd] in H.
  assert (Ht : is_p2tr (to_script u) = true) by (apply is_p2tr_iff; eauto). unfold construct_tap_witness0 in H. rewrite Ht in H. cbn [panic_unless bind] in H.
  cbn [sat_tap_key psbt_input_satisfier] in H. destruct (i0_tap_key_sig i) as [sg|]; cbn [bind] in H.
  - injection H as <- <-. split; [reflexivity|]. left. eauto.
  - destruct (tap_loop0 _ _ _ _ _) as [w'|] eqn:E; cbn [ok_or bind] in H; [|discriminate]. injection H as <- <-. split; [reflexivity|]. right. split; [reflexivity|].
    pose proof (tap_loop0_spec mall (tap_key_map0 (p0_inputs p)) (psbt_input_satisfier (p0_unsigned_tx p) ti i) (i0_tap_scripts i) None) as Hs. rewrite E in Hs. destruct Hs as ([Hs|(leaf & H1 & H2)] & _); [discriminate|].
    apply (leaf_witness0_iff mall p (ti, i) w' leaf H1) in H2 as (cb & script & m & st & Hin & Hm & _ & ->). exists cb, script, st. split; [assumption|].
    rewrite ms_substitute_tap_encode by (intros h' k'; apply tap_key_map0_hash). now rewrite (ms_parse_encode _ _ _ Hm).
Qed.
Print Assumptions C68_v0_taproot.

Example C68_v0_example :
  let s := ser_esig fz_sig in
  let ws := [x21] ++ fz_key ++ [xac] in
  let rs := program_script 0 (sha256 ws) in
  fz_fields false (set_i0_witness_script (Some ws) (fz_in rs)) = Some ([s; ws], [])
  /\ fz_fields false (set_i0_witness_script (Some ws) (set_i0_redeem_script (Some rs) (fz_in (p2sh_script (hash160 rs))))) = Some ([s; ws], [x22] ++ rs)
  /\ fz_fields false (set_i0_redeem_script (Some ws) (fz_in (p2sh_script (hash160 ws)))) = Some ([], push_slice s ++ [x23] ++ ws)
  /\ fz_fields false (set_i0_witness_script (Some (ws ++ [x51])) (fz_in rs)) = None.
Proof. vm_compute. auto 10. Qed.

(** ** C53: the choice of the taproot witness *)

Theorem C53_v0_key_path : forall (X : Ext) (M : MsExt) (NM : MsNmExt M) mall p n ti i u k sg,
  spend_at p n (ti, i) -> funds0 (ti, i) u -> p2tr_key (to_script u) k -> i0_tap_key_sig i = Some sg -> built mall p n [ser_tsig sg] [].
Proof.
  intros X M NM mall p n ti i u k sg Hsp Hu Hk Hs. unfold built. rewrite (build_known mall p n (ti, i) u Hsp Hu). unfold final0. cbv zeta. cbn [fst snd].
  assert (Ht : is_p2tr (to_script u) = true) by (apply is_p2tr_iff; eauto). unfold construct_tap_witness0. rewrite Ht. cbn [sat_tap_key psbt_input_satisfier]. rewrite Hs. reflexivity.
Qed.
Print Assumptions C53_v0_key_path.

Lemma tap_built `{X : Ext} `{M : MsExt} `{NM : !MsNmExt M} mall p n ti i u k :
  spend_at p n (ti, i) -> funds0 (ti, i) u -> p2tr_key (to_script u) k -> i0_tap_key_sig i = None ->
  build_final mall p n =
  match tap_loop0 mall (tap_key_map0 (p0_inputs p)) (psbt_input_satisfier (p0_unsigned_tx p) ti i) (i0_tap_scripts i) None with
  | Some w => Ok (w, []) | None => Err J0CouldNotSatisfyTr end.
Proof.
  intros Hsp Hu Hk Hs. rewrite (build_known mall p n (ti, i) u Hsp Hu). unfold final0. cbv zeta. cbn [fst snd].
  assert (Ht : is_p2tr (to_script u) = true) by (apply is_p2tr_iff; eauto). unfold construct_tap_witness0. rewrite Ht. cbn [panic_unless bind].
  assert (E : sat_tap_key (psbt_input_satisfier (p0_unsigned_tx p) ti i) = None) by exact Hs. rewrite E. destruct (tap_loop0 _ _ _ _ _); reflexivity.
Qed.

(** Without a key signature a witness is found exactly when some leaf can be satisfied. *)
Theorem C53_v0_found_iff : forall (X : Ext) (M : MsExt) (NM : MsNmExt M) mall p n ti i u k,
  spend_at p n (ti, i) -> funds0 (ti, i) u -> p2tr_key (to_script u) k -> i0_tap_key_sig i = None ->
  ((exists w ss, built mall p n w ss) <-> exists w, leaf_spend0 mall p (ti, i) w).
Proof.
  intros X M NM mall p n ti i u k Hsp Hu Hk Hs. unfold built. rewrite (tap_built mall p n ti i u k Hsp Hu Hk Hs).
  pose proof (tap_loop0_spec mall (tap_key_map0 (p0_inputs p)) (psbt_input_satisfier (p0_unsigned_tx p) ti i) (i0_tap_scripts i) None) as H. destruct (tap_loop0 _ _ _ _ _) as [w|]; split.
  - intros _. exists w. apply leaf_spend0_iff. destruct H as ([H|H] & _); [discriminate|assumption].
  - intros _. eauto.
  - intros (w & ss & E). discriminate.
  - intros (w & E). apply leaf_spend0_iff in E as (leaf & H1 & H2). destruct H as [_ H]. cbn [fst snd] in *. rewrite (H leaf H1) in H2. discriminate.
Qed.
Print Assumptions C53_v0_found_iff.

(** The witness chosen is smallest when the length prefixes of the items are not counted.
    Missing: the prefixes. *)
Theorem C53_v0_chosen_partial : forall (X : Ext) (M : MsExt) (NM : MsNmExt M) mall p n ti i u k ss w,
  spend_at p n (ti, i) -> funds0 (ti, i) u -> p2tr_key (to_script u) k -> i0_tap_key_sig i = None -> built mall p n w ss ->
  ss = [] /\ leaf_spend0 mall p (ti, i) w
  /\ forall w', leaf_spend0 mall p (ti, i) w' -> wire_size w + prefix_size w' <= wire_size w' + prefix_size w.
Proof.
  intros X M NM mall p n ti i u k ss w Hsp Hu Hk Hs H. unfold built in H. rewrite (tap_built mall p n ti i u k Hsp Hu Hk Hs) in H.
  pose proof (tap_loop0_spec mall (tap_key_map0 (p0_inputs p)) (psbt_input_satisfier (p0_unsigned_tx p) ti i) (i0_tap_scripts i) None) as Hl.
  destruct (tap_loop0 _ _ _ _ _) as [w0|]; [|discriminate]. injection H as -> <-.
  destruct Hl as ([Hl|Hl] & _ & Hmin); [discriminate|]. split; [reflexivity|]. split; [now apply leaf_spend0_iff|].
  intros w' Hw'. apply leaf_spend0_iff in Hw' as (leaf & H1 & H2). specialize (Hmin leaf w' H1 H2). rewrite !wire_metric. lia.
Qed.
Print Assumptions C53_v0_chosen_partial.

(** One of twelve keys in a shallow leaf against one key twelve levels deeper. *)
Definition fz_x (n : nat) : bytes := repeat (n2b (N.of_nat n)) 32.
Definition fz_multi : bytes := [x20] ++ fz_x 1 ++ [xac] ++ concat (map (fun n => [x20] ++ fz_x n ++ [xba]) (seq 2 11)) ++ [x51; x9c].
Definition fz_single : bytes := [x20] ++ fz_x 1 ++ [xac].
Definition fz_cb (n : nat) : controlblock := ControlBlock 192 false (fz_x 1) (repeat x07 (32 * n)).
Definition fz_tsig : tsig := TSig (repeat x05 64) 0.
Definition fz_tap (depth : nat) : input0 :=
  set_i0_tap_scripts (m_put sk_controlblock (fz_cb depth) (fz_single, 192) (m_put sk_controlblock (fz_cb 0) (fz_multi, 192) []))
    (set_i0_tap_script_sigs (m_put sk_xleaf (fz_x 1, tap_leaf_hash fz_multi 192) fz_tsig (m_put sk_xleaf (fz_x 1, tap_leaf_hash fz_single 192) fz_tsig []))
      (fy_utxo (program_script 1 (fz_x 1)) input0_default)).
Definition fz_ti : txin := TxIn txid_a 0 [] 4294967295 [].
Definition fz_chosen : witness := match fz_fields false (fz_tap 12) with Some (w, _) => w | _ => [] end.
Definition fz_other : witness := [ser_tsig fz_tsig; fz_single; ser_controlblock (fz_cb 12)].
Theorem C53_v0_smallest_refuted : exists (X : Ext) (M : MsExt) (NM : MsNmExt M) p ti i u k w w',
  wf_psbt0 p /\ spend_at p 0 (ti, i) /\ funds0 (ti, i) u /\ p2tr_key (to_script u) k /\ i0_tap_key_sig i = None
  /\ built false p 0 w [] /\ leaf_spend0 false p (ti, i) w' /\ wire_size w' < wire_size w.
Proof.
  exists toy, toy_ms0, toy_nm, (ex0_of [fz_tap 12]), fz_ti, (fz_tap 12), (TxOut 5000 (program_script 1 (fz_x 1))), (fz_x 1), fz_chosen, fz_other.
  split; [apply ex0_wf; vm_compute; reflexivity|]. split; [reflexivity|]. split; [left; reflexivity|].
  split; [split; [split; [reflexivity|split; [lia|vm_compute; split; discriminate]]|reflexivity]|]. split; [reflexivity|].
  split; [vm_compute; reflexivity|]. split; [|vm_compute; reflexivity].
  apply leaf_spend0_iff. exists (fz_cb 12, (fz_single, 192)). split; [|vm_compute; reflexivity]. vm_compute. auto.
Qed.
Print Assumptions C53_v0_smallest_refuted.
Example C53_v0_example :
  fz_fields false (fz_tap 2) = Some ([ser_tsig fz_tsig; fz_single; ser_controlblock (fz_cb 2)], [])
  /\ fz_fields false (set_i0_tap_key_sig (Some fz_tsig) (fz_tap 2)) = Some ([ser_tsig fz_tsig], [])
  /\ fz_fields true (set_i0_tap_script_sigs [] (fz_tap 2)) = None
  /\ (wire_size fz_other, wire_size fz_chosen, prefix_size fz_other, prefix_size fz_chosen) = (521, 524, 5, 16).
Proof. vm_compute. auto. Qed.

(** ** C78: what the satisfier offers *)

(** Signatures by key: exactly the entries of the input. *)
Theorem C78_v0_signatures : forall (X : Ext) t ti i, wf_input0 i ->
  (forall s, sat_tap_key (psbt_input_satisfier t ti i) = Some s <-> i0_tap_key_sig i = Some s) /\
  (forall pk s, sat_ecdsa (psbt_input_satisfier t ti i) pk = Some s <-> In (pk, s) (i0_partial_sigs i)) /\
  (forall x lh s, sat_tap_leaf (psbt_input_satisfier t ti i) x lh = Some s <-> In ((x, lh), s) (i0_tap_script_sigs i)).
Proof.
  intros X t ti i W. split; [reflexivity|]. cbn [sat_ecdsa sat_tap_leaf psbt_input_satisfier]. split; intros; split; intros H.
  - now apply (m_get_in _ sk_pubkey_inj) in H.
  - apply (m_in_get sk_pubkey); auto. apply (wi0_partial_sigs _ W).
  - now apply (m_get_in _ sk_xleaf_inj) in H.
  - apply (m_in_get sk_xleaf); auto. apply (wi0_tap_script_sigs _ W).
Qed.
Print Assumptions C78_v0_signatures.

Lemma find_iff0 {A} (f : A -> bool) (P : A -> Prop) l : (forall a, f a = true <-> P a) ->
  (forall a, find f l = Some a -> In a l /\ P a) /\ (find f l = None <-> forall a, In a l -> ~ P a).
Proof.
  intros Hf. split.
  - intros a H. apply find_some in H as [H1 H2]. split; auto. now apply Hf.
  - split.
    + intros H a Ha Hp. apply Hf in Hp. now rewrite (find_none _ _ H a Ha) in Hp.
    + intros H. destruct (find f l) eqn:E; auto. apply find_some in E as [E1 E2]. apply Hf in E2. now apply H in E1.
Qed.
(** [hash160] is RIPEMD-160 of SHA-256; keys are hashed in their serialized form. *)
Definition keyhash0 `{X : Ext} (k : pubkey) : bytes := ripemd160 (sha256 (ser_pubkey k)).

(** Keys and signatures by the hash of a key: entries of the input with that hash, and
    none only if there is no such entry. *)
Theorem C78_v0_by_hash : forall (X : Ext) t ti i h,
  (forall k, sat_pkh_pk (psbt_input_satisfier t ti i) h = Some k ->
     pub_compressed k = true /\ (exists ks, In (pub_inner k, ks) (i0_bip32_derivation i)) /\ keyhash0 k = h) /\
  (sat_pkh_pk (psbt_input_satisfier t ti i) h = None <->
     forall x ks, In (x, ks) (i0_bip32_derivation i) -> keyhash0 (PubKey true x) <> h) /\
  (forall k s, sat_pkh_ecdsa (psbt_input_satisfier t ti i) h = Some (k, s) -> In (k, s) (i0_partial_sigs i) /\ keyhash0 k = h) /\
  (sat_pkh_ecdsa (psbt_input_satisfier t ti i) h = None <-> forall k s, In (k, s) (i0_partial_sigs i) -> keyhash0 k <> h) /\
  (forall lh x s, sat_pkh_tap (psbt_input_satisfier t ti i) h lh = Some (x, s) ->
     In ((x, lh), s) (i0_tap_script_sigs i) /\ ripemd160 (sha256 x) = h) /\
  (forall lh, sat_pkh_tap (psbt_input_satisfier t ti i) h lh = None <->
     forall x s, In ((x, lh), s) (i0_tap_script_sigs i) -> ripemd160 (sha256 x) <> h).
Proof.
  intros X t ti i h. cbn [sat_pkh_pk sat_pkh_ecdsa sat_pkh_tap psbt_input_satisfier].
  destruct (find_iff0 (fun e : bytes * keysource => bytes_eqb (pubkey_hash (PubKey true (fst e))) h)
    (fun e => keyhash0 (PubKey true (fst e)) = h) (i0_bip32_derivation i)) as [A1 A2]; [intros e; apply bytes_eqb_eq|].
  destruct (find_iff0 (fun e : pubkey * esig => bytes_eqb (pubkey_hash (fst e)) h)
    (fun e => keyhash0 (fst e) = h) (i0_partial_sigs i)) as [B1 B2]; [intros e; apply bytes_eqb_eq|].
  split; [|split; [|split; [|split]]].
  - intros k H. destruct (find _ _) as [[x ks]|]; [|discriminate]. injection H as <-. destruct (A1 _ eq_refl) as [H1 H2]. cbn in *. eauto.
  - split.
    + intros H x ks Hx. destruct (find _ _); [discriminate|]. apply (proj1 A2 eq_refl (x, ks) Hx).
    + intros H. rewrite (proj2 A2); auto. intros [x ks] Hx. exact (H x ks Hx).
  - intros k s H. destruct (B1 _ H). auto.
  - rewrite B2. split; [intros H k s Hk; exact (H (k, s) Hk)|intros H [k s] Hk; exact (H k s Hk)].
  - assert (T : forall lh, let f := fun e : xleaf * tsig => bytes_eqb (hash160 (fst (fst e))) h && bytes_eqb (snd (fst e)) lh in
      (forall a, find f (i0_tap_script_sigs i) = Some a -> In a (i0_tap_script_sigs i) /\ ripemd160 (sha256 (fst (fst a))) = h /\ snd (fst a) = lh) /\
      (find f (i0_tap_script_sigs i) = None <-> forall a, In a (i0_tap_script_sigs i) -> ~ (ripemd160 (sha256 (fst (fst a))) = h /\ snd (fst a) = lh))).
    { intros lh f. apply find_iff0. intros e. unfold f. rewrite andb_true_iff, !bytes_eqb_eq. reflexivity. }
    split.
    + intros lh x s H. destruct (T lh) as [T1 _]. cbv zeta in T1. clear A1 A2 B1 B2 T. destruct (find _ _) as [[[y l] s']|] eqn:E; [|discriminate]. injection H as <- <-.
      destruct (T1 _ eq_refl) as (H1 & H2 & H3). cbn in *. subst. auto.
    + intros lh. destruct (T lh) as [_ T2]. cbv zeta in T2. clear A1 A2 B1 B2 T. split.
      * intros H x s Hx Hh. destruct (find _ _) eqn:E; [discriminate|]. apply (proj1 T2 eq_refl _ Hx). auto.
      * intros H. destruct (find _ _) as [a|]; [exfalso|reflexivity].
        assert (Q : Some a = None); [|discriminate Q]. apply T2. intros [[x l] s] Hx (H1 & H2). cbn in *. subst. exact (H x s Hx eq_refl).
Qed.
Print Assumptions C78_v0_by_hash.

(** Preimages: exactly those of 32 bytes that the input has, and they are preimages. *)
Theorem C78_v0_preimages : forall (X : Ext) t ti i, wf_input0 i -> forall h v,
  (sat_sha256 (psbt_input_satisfier t ti i) h = Some v <-> In (h, v) (i0_sha256_preimages i) /\ length v = 32%nat) /\
  (sat_hash256 (psbt_input_satisfier t ti i) h = Some v <-> In (h, v) (i0_hash256_preimages i) /\ length v = 32%nat) /\
  (sat_ripemd160 (psbt_input_satisfier t ti i) h = Some v <-> In (h, v) (i0_ripemd160_preimages i) /\ length v = 32%nat) /\
  (sat_hash160 (psbt_input_satisfier t ti i) h = Some v <-> In (h, v) (i0_hash160_preimages i) /\ length v = 32%nat) /\
  (sat_sha256 (psbt_input_satisfier t ti i) h = Some v -> sha256 v = h) /\
  (sat_hash256 (psbt_input_satisfier t ti i) h = Some v -> sha256 (sha256 v) = h) /\
  (sat_ripemd160 (psbt_input_satisfier t ti i) h = Some v -> ripemd160 v = h) /\
  (sat_hash160 (psbt_input_satisfier t ti i) h = Some v -> ripemd160 (sha256 v) = h).
Proof.
  intros X t ti i W h v. cbn [sat_sha256 sat_hash256 sat_ripemd160 sat_hash160 psbt_input_satisfier].
  assert (G : forall n f m, preimages n f m ->
    (lookup_preimage m h = Some v <-> In (h, v) m /\ length v = 32%nat) /\ (lookup_preimage m h = Some v -> f v = h)).
  { intros n f m [[Hs _] Hh].
    assert (Q : lookup_preimage m h = Some v <-> In (h, v) m /\ length v = 32%nat).
    { unfold lookup_preimage, try_preimage32. split.
      - intros H. destruct (m_get bkey h m) as [w|] eqn:E; [|discriminate]. destruct (N.eqb_spec (blen w) 32); [|discriminate].
        injection H as <-. apply (m_get_in _ bkey_inj) in E. split; auto. unfold blen in *. lia.
      - intros [Hi Hl]. rewrite (m_in_get bkey h v m Hs Hi). replace (blen v =? 32) with true by (unfold blen; lia). reflexivity. }
    split; auto. intros H. apply Q in H as [H _]. rewrite Forall_forall in Hh. exact (Hh _ H). }
  destruct (G _ _ _ (wi0_sha256 _ W)), (G _ _ _ (wi0_hash256 _ W)), (G _ _ _ (wi0_ripemd160 _ W)), (G _ _ _ (wi0_hash160 _ W)). auto 12.
Qed.
Print Assumptions C78_v0_preimages.

Definition fz_pre : bytes := repeat x07 32.
Definition fz_sat : input0 :=
  set_i0_sha256_preimages (m_put bkey (sha256 fz_pre) fz_pre (m_put bkey (sha256 [x01]) [x01] []))
    (set_i0_bip32_derivation (fy_keys [2]) (fz_in fz_wpkh_script)).
Example C78_v0_example : wf_psbt0 (ex0_of [fz_sat])
  /\ let s := psbt_input_satisfier (p0_unsigned_tx (ex0_of [fz_sat])) fz_ti fz_sat in
     sat_ecdsa s (PubKey true fz_key) = Some fz_sig
  /\ sat_ecdsa s (PubKey true (ex0_pk 2)) = None
  /\ sat_pkh_ecdsa s (keyhash0 (PubKey true fz_key)) = Some (PubKey true fz_key, fz_sig)
  /\ sat_pkh_pk s (keyhash0 (PubKey true (ex0_pk 2))) = Some (PubKey true (ex0_pk 2))
  /\ sat_sha256 s (sha256 fz_pre) = Some fz_pre
  /\ sat_sha256 s (sha256 [x01]) = None
  /\ sat_hash160 s (hash160 fz_pre) = None.
Proof. split; [apply ex0_wf; vm_compute; reflexivity|]. vm_compute. auto 10. Qed.
