(** C53, C67, C68: the scripts and witnesses that the finalizer builds. *)
From Coq Require Import Sorted.
From Verif Require Import Base OMap Consensus ConsensusFacts Ext ExtInstance Raw RawFacts TapTree Serialize SerializeFacts MapCodec
  V2Global V2Input V2Output V2Psbt SpecCodec SpecPsbt V2PsbtFacts V2WireFacts V2Roles SpecRoles V2RolesFacts
  Script SighashType V2Sign SignInstance SpecSign V2SignFacts SampleV2 PropertiesV2Sign
  V2Finalize SpecFinalize V2FinalizeFacts MsInstance PropertiesV2Finalize V2SpendFacts.
Local Open Scope N_scope.

(** Used by the examples only; the theorems bind their own. *)
#[local] Existing Instance toy | 100.
#[local] Instance ex_cfg : Cfg | 100 := cfg_of false false.
#[local] Existing Instance toy_sign | 100.
#[local] Existing Instance toy_ms | 100.

(** ** C67: outputs of a single key *)

Lemma find_sig (f : pubkey * esig -> bool) l k s :
  m_sorted sk_pubkey l -> find f l = Some (k, s) -> m_get sk_pubkey k l = Some s /\ In (k, s) l /\ f (k, s) = true.
Proof. intros Hs H. apply find_some in H as [H1 H2]. split; [now apply m_in_get|]. auto. Qed.

(** What is built for an output of a single key is a signature of the input under that key, with
    the key where it is needed, in the place where it is needed. *)
Theorem C67_sound : forall (X : Ext) (L : ExtLaws X) (C : Cfg) (M : MsExt) (ML : MsLaws X M) p i u ss w,
  wf_input i -> funds i u -> single_key (in_redeem_script i) (to_script u) ->
  (forall k s, In (k, s) (in_partial_sigs i) -> (4 < length (ser_esig s))%nat) ->
  computed p i ss w ->
  exists k s, In (k, s) (in_partial_sigs i) /\ key_spend k s (to_script u) ss w.
Proof.
  intros X L C M ML p i u ss w Hwf Hu Hk Hsz H. destruct (wi_partial_sigs _ Hwf) as [Hso Hall]. rewrite Forall_forall in Hall.
  unfold computed, final_script_sig_and_witness in H. rewrite (expect_funds i u Hu) in H. cbn [bind] in H.
  unfold get_descriptor in H. rewrite (expect_funds i u Hu) in H. cbn [bind] in H. destruct Hk as [kb Hkb|h Hh|h Hh|h h' Hh Hr Hh'].
  - set (spk := n2b (blen kb) :: kb ++ [xac]) in *.
    assert (Hl : length spk = 35%nat \/ length spk = 67%nat) by (unfold spk; cbn [length]; rewrite app_length; cbn; lia).
    rewrite (not_by_length is_p2tr spk 34 (p2tr_length spk)) in H by lia. cbn [bind] in H.
    rewrite (proj2 (is_p2pk_iff spk)) in H by (exists kb; auto).
    replace (removelast (tl spk)) with kb in H by (unfold spk; cbn [tl]; symmetry; apply removelast_last).
    destruct (de_pubkey kb) as [k| |] eqn:Ek; cbn [bind] in H; try discriminate. cbn [desc_satisfaction sat_ecdsa input_satisfier] in H.
    destruct (m_get sk_pubkey k (in_partial_sigs i)) as [s|] eqn:Eg; cbn [option_map ok_or bind] in H; [|discriminate]. inj H. injection H as <- <-.
    apply (m_get_in sk_pubkey sk_pubkey_inj) in Eg. exists k, s. split; [assumption|].
    apply pubkey_canonical in Ek. unfold spk. rewrite Ek. apply KSPk. apply ms_script_sig_push.
    destruct (Hall _ Eg) as [_ Hs]. apply ser_esig_length in Hs. specialize (Hsz k s Eg). cbn [snd] in Hs. lia.
  - set (spk := p2pkh_script h) in *. assert (Hp : is_p2pkh spk = true) by (apply is_p2pkh_iff; exists h; auto). pose proof (p2pkh_length _ Hp) as Hl.
    rewrite (not_by_length is_p2tr spk 34 (p2tr_length spk)) in H by lia. cbn [bind] in H.
    destruct (is_p2pk spk) eqn:Ep. { apply p2pk_length in Ep. lia. } rewrite Hp in H.
    destruct (find _ (in_partial_sigs i)) as [[k s]|] eqn:Ef; cbn [bind] in H; [|discriminate].
    apply (find_sig _ _ _ _ Hso) in Ef as (Hg & Hin & Hf). cbn [desc_satisfaction sat_ecdsa input_satisfier] in H. rewrite Hg in H. cbn [option_map ok_or bind] in H.
    inj H. injection H as <- <-. exists k, s. split; [assumption|]. cbn [fst] in Hf. apply bytes_eqb_eq in Hf. rewrite Hf, p2pkh_of_script. apply KSPkh.
    destruct (Hall _ Hin) as [Hk Hs]. cbn [fst snd] in Hk, Hs. apply ser_esig_length in Hs. apply ser_pubkey_length in Hk. rewrite !push_short by lia. reflexivity.
  - set (spk := program_script 0 h) in *. assert (Hp : is_p2wpkh spk = true) by now apply wpkh_program. pose proof (p2wpkh_length _ Hp) as Hl.
    rewrite (not_by_length is_p2tr spk 34 (p2tr_length spk)) in H by lia. cbn [bind] in H.
    destruct (is_p2pk spk) eqn:Ep. { apply p2pk_length in Ep. lia. } rewrite (not_by_length is_p2pkh spk 25 (p2pkh_length spk)) in H by lia. rewrite Hp in H.
    unfold find_wpkh in H. destruct (find _ (in_partial_sigs i)) as [[k s]|] eqn:Ef; cbn [bind] in H; [|discriminate].
    apply (find_sig _ _ _ _ Hso) in Ef as (Hg & Hin & Hf). cbn [desc_satisfaction sat_ecdsa input_satisfier] in H. rewrite Hg in H. cbn [option_map ok_or bind] in H.
    inj H. injection H as <- <-. exists k, s. split; [assumption|]. cbn [fst] in Hf. apply andb_true_iff in Hf as [Hc Hf]. apply bytes_eqb_eq in Hf.
    rewrite Hf, p2wpkh_of_program. now apply KSWpkh.
  - set (spk := p2sh_script h) in *. assert (Hp : is_p2sh spk = true) by (apply is_p2sh_iff; exists h; auto). pose proof (p2sh_length _ Hp) as Hl.
    rewrite (not_by_length is_p2tr spk 34 (p2tr_length spk)) in H by lia. cbn [bind] in H.
    destruct (is_p2pk spk) eqn:Ep. { apply p2pk_length in Ep. lia. } rewrite (not_by_length is_p2pkh spk 25 (p2pkh_length spk)) in H by lia.
    rewrite (not_by_length is_p2wpkh spk 22 (p2wpkh_length spk)) in H by lia. rewrite (not_by_length is_p2wsh spk 34 (p2wsh_length spk)) in H by lia.
    rewrite Hp, Hr in H. destruct (bytes_eqb (to_p2sh (program_script 0 h')) spk) eqn:Er; cbn [negb bind] in H; [|discriminate]. apply bytes_eqb_eq in Er.
    pose proof (wpkh_program h' Hh') as Hw. pose proof (p2wpkh_length _ Hw) as Hwl.
    rewrite (not_by_length is_p2wsh (program_script 0 h') 34 (p2wsh_length _)), Hw in H by lia.
    unfold find_wpkh in H. destruct (find _ (in_partial_sigs i)) as [[k s]|] eqn:Ef; cbn [bind] in H; [|discriminate].
    apply (find_sig _ _ _ _ Hso) in Ef as (Hg & Hin & Hf). cbn [desc_satisfaction sat_ecdsa input_satisfier] in H. rewrite Hg in H. cbn [option_map ok_or bind] in H.
    inj H. injection H as <- <-. exists k, s. split; [assumption|]. cbn [fst] in Hf. apply andb_true_iff in Hf as [Hc Hf]. apply bytes_eqb_eq in Hf.
    rewrite <- Er, to_p2sh_script, <- Hf. rewrite push_short by (rewrite Hwl; lia). apply KSShWpkh; [assumption|]. rewrite Hf. apply p2wpkh_of_program.
Qed.
Print Assumptions C67_sound.

Lemma find_exists {A} (f : A -> bool) l a : In a l -> f a = true -> exists b, find f l = Some b.
Proof.
  intros H1 H2. destruct (find f l) as [b|] eqn:E; [eauto|]. pose proof (find_none f l E a H1). congruence.
Qed.

(** If the input has a signature that can spend the output, something is built. *)
Theorem C67_complete : forall (X : Ext) (L : ExtLaws X) (C : Cfg) (M : MsExt) p i u k s ss w,
  wf_input i -> funds i u -> In (k, s) (in_partial_sigs i) -> key_spend k s (to_script u) ss w ->
  (p2sh (to_script u) -> in_redeem_script i = Some (program_script 0 (hash160 (ser_pubkey k)))) ->
  exists ss' w', computed p i ss' w'.
Proof.
  intros X L C M p i u k s ss w Hwf Hu Hin Hk Hr. destruct (wi_partial_sigs _ Hwf) as [Hso Hall]. rewrite Forall_forall in Hall.
  pose proof (Hall _ Hin) as [Hwk _]. cbn [fst] in Hwk.
  unfold computed, final_script_sig_and_witness. rewrite (expect_funds i u Hu). cbn [bind].
  unfold get_descriptor. rewrite (expect_funds i u Hu). cbn [bind].
  pose proof (hash160_len (ser_pubkey k)) as Hh. remember (to_script u) as spk eqn:Espk. destruct Hk as [ss Hss|ss Hss|Hc|prog Hc Hprog].
  - set (spk := n2b (blen (ser_pubkey k)) :: ser_pubkey k ++ [xac]) in *. pose proof (ser_pubkey_length k Hwk) as Hl.
    assert (Hl' : length spk = 35%nat \/ length spk = 67%nat) by (unfold spk; cbn [length]; rewrite app_length; cbn; lia).
    rewrite (not_by_length is_p2tr spk 34 (p2tr_length spk)) by lia. rewrite (proj2 (is_p2pk_iff spk)) by (exists (ser_pubkey k); auto).
    replace (removelast (tl spk)) with (ser_pubkey k) by (unfold spk; cbn [tl]; symmetry; apply removelast_last).
    rewrite (co_rt _ _ _ _ (pubkey_codec 65 ltac:(lia))) by assumption. cbn [bind desc_satisfaction sat_ecdsa input_satisfier].
    rewrite (m_in_get sk_pubkey k s _ Hso Hin). cbn. eauto.
  - set (spk := p2pkh_script (hash160 (ser_pubkey k))) in *. assert (Hp : is_p2pkh spk = true) by (apply is_p2pkh_iff; eexists; split; [|reflexivity]; assumption). pose proof (p2pkh_length _ Hp) as Hl.
    rewrite (not_by_length is_p2tr spk 34 (p2tr_length spk)) by lia. destruct (is_p2pk spk) eqn:Ep. { apply p2pk_length in Ep. lia. } rewrite Hp.
    destruct (find_exists (fun e : pubkey * esig => bytes_eqb spk (p2pkh_of (fst e))) (in_partial_sigs i) (k, s) Hin) as [[k' s'] Ef].
    { apply bytes_eqb_eq. reflexivity. }
    rewrite Ef. cbn [bind desc_satisfaction sat_ecdsa input_satisfier]. apply (find_sig _ _ _ _ Hso) in Ef as (Hg & _ & _). rewrite Hg. cbn. eauto.
  - set (spk := program_script 0 (hash160 (ser_pubkey k))) in *. assert (Hp : is_p2wpkh spk = true) by now apply wpkh_program. pose proof (p2wpkh_length _ Hp) as Hl.
    rewrite (not_by_length is_p2tr spk 34 (p2tr_length spk)) by lia. destruct (is_p2pk spk) eqn:Ep. { apply p2pk_length in Ep. lia. }
    rewrite (not_by_length is_p2pkh spk 25 (p2pkh_length spk)) by lia. rewrite Hp. unfold find_wpkh.
    destruct (find_exists (fun e : pubkey * esig => pub_compressed (fst e) && bytes_eqb spk (p2wpkh_of (fst e))) (in_partial_sigs i) (k, s) Hin) as [[k' s'] Ef].
    { cbn [fst]. rewrite Hc, p2wpkh_of_program. now apply bytes_eqb_eq. }
    rewrite Ef. cbn [bind desc_satisfaction sat_ecdsa input_satisfier]. apply (find_sig _ _ _ _ Hso) in Ef as (Hg & _ & _). rewrite Hg. cbn. eauto.
  - set (spk := p2sh_script (hash160 prog)) in *. assert (Hp2 : p2sh spk) by (exists (hash160 prog); split; [apply hash160_len|reflexivity]).
    assert (Hp : is_p2sh spk = true) by now apply is_p2sh_iff. pose proof (p2sh_length _ Hp) as Hl.
    rewrite (not_by_length is_p2tr spk 34 (p2tr_length spk)) by lia. destruct (is_p2pk spk) eqn:Ep. { apply p2pk_length in Ep. lia. }
    rewrite (not_by_length is_p2pkh spk 25 (p2pkh_length spk)) by lia.
    rewrite (not_by_length is_p2wpkh spk 22 (p2wpkh_length spk)) by lia. rewrite (not_by_length is_p2wsh spk 34 (p2wsh_length spk)) by lia.
    rewrite Hp, (Hr Hp2), <- Hprog. rewrite to_p2sh_script. replace (bytes_eqb (p2sh_script (hash160 prog)) spk) with true by (symmetry; now apply bytes_eqb_eq).
    cbn [negb]. assert (Hw : is_p2wpkh prog = true) by (rewrite Hprog; now apply wpkh_program). pose proof (p2wpkh_length _ Hw) as Hwl.
    rewrite (not_by_length is_p2wsh prog 34 (p2wsh_length _)), Hw by lia. unfold find_wpkh.
    destruct (find_exists (fun e : pubkey * esig => pub_compressed (fst e) && bytes_eqb prog (p2wpkh_of (fst e))) (in_partial_sigs i) (k, s) Hin) as [[k' s'] Ef].
    { cbn [fst]. rewrite Hc, p2wpkh_of_program, Hprog. now apply bytes_eqb_eq. }
    rewrite Ef. cbn [bind desc_satisfaction sat_ecdsa input_satisfier]. apply (find_sig _ _ _ _ Hso) in Ef as (Hg & _ & _). rewrite Hg. cbn. eauto.
Qed.
Print Assumptions C67_complete.

Definition fx_utxo (spk : bytes) (i : input) : input := fx_sig [x01] (set_in_witness_utxo (Some (TxOut 5000 spk)) i).
Example C67_example :
  let i := input_new (txid_a, 0) in
  let s := ser_esig (ESig (sign_ecdsa [x01] ex_sec_a) 1) in
  let fields i := match final_script_sig_and_witness [i] i with Ok r => Some r | _ => None end in
  fields (fx_utxo ([x21] ++ fx_key ++ [xac]) i) = Some ([x22] ++ s, [])
  /\ fields (fx_utxo fx_pkh_script i) = Some ([x22] ++ s ++ [x21] ++ fx_key, [])
  /\ fields (fx_utxo fx_wpkh_script i) = Some ([], [s; fx_key])
  /\ fields (set_in_redeem_script (Some fx_wpkh_script) (fx_utxo (p2sh_script (hash160 fx_wpkh_script)) i)) = Some ([x16] ++ fx_wpkh_script, [s; fx_key]).
Proof. vm_compute. auto. Qed.

(** ** C68: revealed scripts *)

Lemma new_desc_ok {M : MsExt} c mk m d : new_desc c mk m = Ok d -> d = mk m.
Proof. unfold new_desc. destruct (ms_top_level c m); intros H; [now inj H|discriminate]. Qed.

(** Pay to witness script hash: the last item of the witness is the witness script of the input and
    hashes to the program; nested, the script sig pushes the redeem script, which hashes to the
    script hash. *)
Theorem C68_wsh : forall (X : Ext) (L : ExtLaws X) (C : Cfg) (M : MsExt) (ML : MsLaws X M) p i u h ss w,
  funds i u -> p2wsh_hash (to_script u) h -> computed p i ss w ->
  ss = [] /\ exists ws st, in_witness_script i = Some ws /\ sha256 ws = h /\ w = st ++ [ws].
Proof.
  intros X L C M ML p i u h ss w Hu Hh H. unfold computed, final_script_sig_and_witness in H. rewrite (expect_funds i u Hu) in H. cbn [bind] in H.
  unfold get_descriptor in H. rewrite (expect_funds i u Hu) in H. cbn [bind] in H.
  assert (Hw : is_p2wsh (to_script u) = true) by (apply is_p2wsh_iff; eauto). pose proof (p2wsh_length _ Hw) as Hl.
  rewrite (p2wsh_not_tr _ Hw) in H. destruct (is_p2pk (to_script u)) eqn:Ep. { apply p2pk_length in Ep. lia. }
  rewrite (not_by_length is_p2pkh _ 25 (p2pkh_length _)) in H by lia. rewrite (not_by_length is_p2wpkh _ 22 (p2wpkh_length _)) in H by lia.
  rewrite Hw in H. destruct (is_some (in_redeem_script i)); cbn [bind] in H; [discriminate|].
  destruct (in_witness_script i) as [ws|]; cbn [bind] in H; [|discriminate].
  destruct (bytes_eqb (to_p2wsh ws) (to_script u)) eqn:Eq; cbn [negb bind] in H; [|discriminate]. apply bytes_eqb_eq in Eq.
  destruct (ms_parse CSegwitv0 ws) as [m|] eqn:Em; cbn [ok_or bind] in H; [|discriminate].
  destruct (new_desc _ _ _) as [d| |] eqn:Ed; cbn [bind] in H; try discriminate. apply new_desc_ok in Ed. subst d. cbn [desc_satisfaction] in H.
  destruct (ms_satisfy _ _ _) as [st|]; cbn [option_map ok_or bind] in H; [|discriminate]. inj H. injection H as <- <-. split; [reflexivity|].
  exists ws, st. split; [reflexivity|]. rewrite ms_substitute_encode by (intros h' k; apply known_keys_hash). rewrite (ms_parse_encode _ _ _ Em).
  split; [|reflexivity]. rewrite to_p2wsh_program in Eq. destruct Hh as [(E & _) _]. rewrite E in Eq. now apply program_script_inj in Eq.
Qed.
Print Assumptions C68_wsh.

Theorem C68_sh : forall (X : Ext) (L : ExtLaws X) (C : Cfg) (M : MsExt) (ML : MsLaws X M) p i u h ss w,
  funds i u -> to_script u = p2sh_script h -> length h = 20%nat -> computed p i ss w ->
  exists rs, in_redeem_script i = Some rs /\ hash160 rs = h /\
    ((exists h', p2wpkh_hash rs h' /\ ss = n2b (blen rs) :: rs /\ exists s k, w = [s; k])
     \/ (exists h' ws st, p2wsh_hash rs h' /\ in_witness_script i = Some ws /\ sha256 ws = h' /\ w = st ++ [ws] /\ ss = n2b (blen rs) :: rs)
     \/ (w = [] /\ ((4 < length rs <= 520)%nat -> exists st, ss = st ++ push_slice rs))).
Proof.
  intros X L C M ML p i u h ss w Hu Hs Hh H. unfold computed, final_script_sig_and_witness in H. rewrite (expect_funds i u Hu) in H. cbn [bind] in H.
  unfold get_descriptor in H. rewrite (expect_funds i u Hu) in H. cbn [bind] in H.
  assert (Hw : is_p2sh (to_script u) = true) by (apply is_p2sh_iff; exists h; auto). pose proof (p2sh_length _ Hw) as Hl.
  rewrite (not_by_length is_p2tr _ 34 (p2tr_length _)) in H by lia. destruct (is_p2pk (to_script u)) eqn:Ep. { apply p2pk_length in Ep. lia. }
  rewrite (not_by_length is_p2pkh _ 25 (p2pkh_length _)) in H by lia. rewrite (not_by_length is_p2wpkh _ 22 (p2wpkh_length _)) in H by lia.
  rewrite (not_by_length is_p2wsh _ 34 (p2wsh_length _)) in H by lia. rewrite Hw in H.
  destruct (in_redeem_script i) as [rs|]; cbn [bind] in H; [|discriminate].
  destruct (bytes_eqb (to_p2sh rs) (to_script u)) eqn:Eq; cbn [negb bind] in H; [|discriminate]. apply bytes_eqb_eq in Eq.
  rewrite Hs, to_p2sh_script in Eq. apply p2sh_script_inj in Eq. exists rs. split; [reflexivity|]. split; [assumption|].
  destruct (is_p2wsh rs) eqn:E1.
  - right. left. pose proof (p2wsh_length _ E1) as Hl1. apply is_p2wsh_iff in E1 as [h' Hh']. destruct (in_witness_script i) as [ws|]; cbn [bind] in H; [|discriminate].
    destruct (bytes_eqb (to_p2wsh ws) rs) eqn:Eq'; cbn [negb bind] in H; [|discriminate]. apply bytes_eqb_eq in Eq'.
    destruct (ms_parse CSegwitv0 ws) as [m|] eqn:Em; cbn [ok_or bind] in H; [|discriminate].
    destruct (new_desc _ _ _) as [d| |] eqn:Ed; cbn [bind] in H; try discriminate. apply new_desc_ok in Ed. subst d. cbn [desc_satisfaction] in H.
    destruct (ms_satisfy _ _ _) as [st|]; cbn [option_map ok_or bind] in H; [|discriminate].
    rewrite ms_substitute_encode in H by (intros h2 k; apply known_keys_hash). rewrite (ms_parse_encode _ _ _ Em) in H.
    assert (E3 : sha256 ws = h').
    { rewrite to_p2wsh_program in Eq'. destruct Hh' as [(E & _) _]. rewrite E in Eq'. now apply program_script_inj in Eq'. }
    rewrite Eq', push_short in H by lia. exists h', ws, st. inj H. injection H as <- <-. auto.
  - destruct (is_p2wpkh rs) eqn:E2.
    + left. pose proof (p2wpkh_length _ E2) as Hl2. apply is_p2wpkh_iff in E2 as [h' Hh']. exists h'. split; [assumption|].
      destruct (find_wpkh i rs) as [[k s]|] eqn:Ef; cbn [bind] in H; [|discriminate]. apply find_some in Ef as [_ Hf]. cbn [fst] in Hf.
      apply andb_true_iff in Hf as [_ Hf]. apply bytes_eqb_eq in Hf. cbn [desc_satisfaction sat_ecdsa input_satisfier] in H.
      destruct (m_get _ _ _) as [s'|]; cbn [option_map ok_or bind] in H; [|discriminate]. rewrite <- Hf, push_short in H by lia. inj H. injection H as <- <-. eauto.
    + right. right. destruct (is_some (in_witness_script i)); cbn [bind] in H; [discriminate|].
      destruct (ms_parse CLegacy rs) as [m|] eqn:Em; cbn [ok_or bind] in H; [|discriminate].
      destruct (new_desc _ _ _) as [d| |] eqn:Ed; cbn [bind] in H; try discriminate. apply new_desc_ok in Ed. subst d. cbn [desc_satisfaction] in H.
      destruct (ms_satisfy _ _ _) as [st|]; cbn [option_map ok_or bind] in H; [|discriminate]. inj H. injection H as <- <-. split; [reflexivity|]. intros Hlen.
      rewrite (ms_parse_encode _ _ _ Em). now apply ms_script_sig_last.
Qed.
Print Assumptions C68_sh.

(** Taproot: a key spend is the signature of the input; a script spend ends with a leaf of the
    input and its control block. *)
Theorem C68_taproot : forall (X : Ext) (L : ExtLaws X) (C : Cfg) (M : MsExt) (ML : MsLaws X M) p i u k ss w,
  funds i u -> p2tr_key (to_script u) k -> computed p i ss w ->
  ss = [] /\
  ((exists sg, in_tap_key_sig i = Some sg /\ w = [ser_tsig sg])
   \/ in_tap_key_sig i = None /\ exists cb script st, In (cb, (script, 192)) (in_tap_scripts i) /\ w = st ++ [script; ser_controlblock cb]).
Proof.
  intros X L C M ML p i u k ss w Hu Hk H. unfold computed, final_script_sig_and_witness in H. rewrite (expect_funds i u Hu) in H. cbn [bind] in H.
  assert (Ht : is_p2tr (to_script u) = true) by (apply is_p2tr_iff; eauto). unfold construct_tap_witness in H. rewrite Ht in H. cbn [panic_unless bind] in H.
  destruct (in_tap_key_sig i) as [sg|]; cbn [bind] in H.
  - inj H. injection H as <- <-. split; [reflexivity|]. left. eauto.
  - destruct (tap_loop _ _ _ _) as [w'|] eqn:E; cbn [ok_or bind] in H; [|discriminate]. inj H. injection H as <- <-. split; [reflexivity|]. right. split; [reflexivity|].
    pose proof (tap_loop_spec (tap_key_map i) (input_satisfier i) (in_tap_scripts i) None) as Hs. rewrite E in Hs. destruct Hs as ([Hs|(leaf & H1 & H2)] & _); [discriminate|].
    apply (leaf_witness_iff i _ _ H1) in H2 as (cb & script & m & st & Hin & Hm & _ & ->). exists cb, script, st. split; [assumption|].
    rewrite ms_substitute_tap_encode by (intros h' k'; apply tap_key_map_hash). now rewrite (ms_parse_encode _ _ _ Hm).
Qed.
Print Assumptions C68_taproot.

Example C68_example :
  let i := input_new (txid_a, 0) in
  let s := ser_esig (ESig (sign_ecdsa [x01] ex_sec_a) 1) in
  let ws := [x21] ++ fx_key ++ [xac] in
  let rs := program_script 0 (sha256 ws) in
  let fields i := match final_script_sig_and_witness [i] i with Ok r => Some r | _ => None end in
  fields (set_in_witness_script (Some ws) (fx_utxo rs i)) = Some ([], [s; ws])
  /\ fields (set_in_witness_script (Some ws) (set_in_redeem_script (Some rs) (fx_utxo (p2sh_script (hash160 rs)) i))) = Some ([x22] ++ rs, [s; ws])
  /\ fields (set_in_redeem_script (Some ws) (fx_utxo (p2sh_script (hash160 ws)) i)) = Some ([x22] ++ s ++ [x23] ++ ws, [])
  /\ fields (set_in_witness_script (Some (ws ++ [x51])) (fx_utxo rs i)) = None.
Proof. vm_compute. auto. Qed.

(** ** C53: the choice of the taproot witness *)

Theorem C53_key_path : forall (X : Ext) (C : Cfg) (M : MsExt) p i u k sg,
  funds i u -> p2tr_key (to_script u) k -> in_tap_key_sig i = Some sg -> computed p i [] [ser_tsig sg].
Proof.
  intros X C M p i u k sg Hu Hk Hs. unfold computed, final_script_sig_and_witness. rewrite (expect_funds i u Hu). cbn [bind].
  assert (Ht : is_p2tr (to_script u) = true) by (apply is_p2tr_iff; eauto). unfold construct_tap_witness. rewrite Ht, Hs. reflexivity.
Qed.
Print Assumptions C53_key_path.

Lemma tap_computed {X : Ext} {C : Cfg} {M : MsExt} p i u k : funds i u -> p2tr_key (to_script u) k -> in_tap_key_sig i = None ->
  final_script_sig_and_witness (p_inputs p) i =
  match tap_loop (tap_key_map i) (input_satisfier i) (in_tap_scripts i) None with Some w => Ok ([], w) | None => Err IECouldNotSatisfyTr end.
Proof.
  intros Hu Hk Hs. unfold final_script_sig_and_witness. rewrite (expect_funds i u Hu). cbn [bind].
  assert (Ht : is_p2tr (to_script u) = true) by (apply is_p2tr_iff; eauto). unfold construct_tap_witness. rewrite Ht, Hs. cbn [panic_unless bind].
  destruct (tap_loop _ _ _ _); reflexivity.
Qed.

(** Without a key signature a witness is found exactly when some leaf can be satisfied. *)
Theorem C53_found_iff : forall (X : Ext) (C : Cfg) (M : MsExt) p i u k,
  funds i u -> p2tr_key (to_script u) k -> in_tap_key_sig i = None ->
  ((exists ss w, computed p i ss w) <-> exists w, leaf_spend i w).
Proof.
  intros X C M p i u k Hu Hk Hs. unfold computed. rewrite (tap_computed p i u k Hu Hk Hs).
  pose proof (tap_loop_spec (tap_key_map i) (input_satisfier i) (in_tap_scripts i) None) as H. destruct (tap_loop _ _ _ _) as [w|]; split.
  - intros _. exists w. apply leaf_spend_iff. destruct H as ([H|H] & _); [discriminate|assumption].
  - intros _. eauto.
  - intros (ss & w & E). discriminate.
  - intros (w & E). apply leaf_spend_iff in E as (leaf & H1 & H2). destruct H as [_ H]. rewrite (H leaf H1) in H2. discriminate.
Qed.
Print Assumptions C53_found_iff.

(** The witness chosen is smallest when the length prefixes of the items are not counted.
    Missing: the prefixes. *)
Theorem C53_chosen_partial : forall (X : Ext) (C : Cfg) (M : MsExt) p i u k ss w,
  funds i u -> p2tr_key (to_script u) k -> in_tap_key_sig i = None -> computed p i ss w ->
  ss = [] /\ leaf_spend i w /\ forall w', leaf_spend i w' -> wire_size w + prefix_size w' <= wire_size w' + prefix_size w.
Proof.
  intros X C M p i u k ss w Hu Hk Hs H. unfold computed in H. rewrite (tap_computed p i u k Hu Hk Hs) in H.
  pose proof (tap_loop_spec (tap_key_map i) (input_satisfier i) (in_tap_scripts i) None) as Hl. destruct (tap_loop _ _ _ _) as [w0|]; [|discriminate]. inj H. injection H as <- <-.
  destruct Hl as ([Hl|Hl] & _ & Hmin); [discriminate|]. split; [reflexivity|]. split; [now apply leaf_spend_iff|].
  intros w' Hw'. apply leaf_spend_iff in Hw' as (leaf & H1 & H2). specialize (Hmin leaf w' H1 H2). rewrite !wire_metric. lia.
Qed.
Print Assumptions C53_chosen_partial.

(** So it is smallest among the witnesses whose prefixes take as much or more. *)
Theorem C53_smallest_partial : forall (X : Ext) (C : Cfg) (M : MsExt) p i u k ss w w',
  funds i u -> p2tr_key (to_script u) k -> in_tap_key_sig i = None -> computed p i ss w ->
  leaf_spend i w' -> prefix_size w <= prefix_size w' -> wire_size w <= wire_size w'.
Proof.
  intros X C M p i u k ss w w' Hu Hk Hs H Hw' Hp. destruct (C53_chosen_partial X C M p i u k ss w Hu Hk Hs H) as (_ & _ & Hm).
  specialize (Hm w' Hw'). lia.
Qed.
Print Assumptions C53_smallest_partial.

(** One of twelve keys in a shallow leaf against one key twelve levels deeper. *)
Definition fx_x (n : nat) : bytes := repeat (n2b (N.of_nat n)) 32.
Definition fx_multi : bytes := [x20] ++ fx_x 1 ++ [xac] ++ concat (map (fun n => [x20] ++ fx_x n ++ [xba]) (seq 2 11)) ++ [x51; x9c].
Definition fx_single : bytes := [x20] ++ fx_x 1 ++ [xac].
Definition fx_cb (n : nat) : controlblock := ControlBlock 192 false (fx_x 1) (repeat x07 (32 * n)).
Definition fx_tsig : tsig := TSig (repeat x05 64) 0.
Definition fx_tap : input :=
  set_in_tap_scripts (m_put sk_controlblock (fx_cb 12) (fx_single, 192) (m_put sk_controlblock (fx_cb 0) (fx_multi, 192) []))
    (set_in_tap_script_sigs (m_put sk_xleaf (fx_x 1, tap_leaf_hash fx_multi 192) fx_tsig (m_put sk_xleaf (fx_x 1, tap_leaf_hash fx_single 192) fx_tsig []))
      (set_in_witness_utxo (Some (TxOut 5000 (program_script 1 (fx_x 1)))) (input_new (txid_a, 0)))).
Definition fx_chosen : witness := match final_script_sig_and_witness [fx_tap] fx_tap with Ok (_, w) => w | _ => [] end.
Definition fx_other : witness := [ser_tsig fx_tsig; fx_single; ser_controlblock (fx_cb 12)].

Theorem C53_smallest_refuted : exists (X : Ext) (C : Cfg) (M : MsExt) p i u k w w',
  wf_psbt p /\ finalizer_value p /\ p_inputs p = [i] /\ funds i u /\ p2tr_key (to_script u) k /\ in_tap_key_sig i = None
  /\ computed p i [] w /\ leaf_spend i w' /\ wire_size w' < wire_size w.
Proof.
  exists toy, ex_cfg, toy_ms, (ex_of 0 [fx_tap]), fx_tap, (TxOut 5000 (program_script 1 (fx_x 1))), (fx_x 1), fx_chosen, fx_other.
  split; [apply ex_wf; vm_compute; reflexivity|]. split; [vm_compute; reflexivity|]. split; [reflexivity|]. split; [left; reflexivity|].
  split; [split; [split; [reflexivity|split; [lia|vm_compute; split; discriminate]]|reflexivity]|]. split; [reflexivity|].
  split; [vm_compute; reflexivity|]. split; [|vm_compute; reflexivity].
  apply leaf_spend_iff. exists (fx_cb 12, (fx_single, 192)). split; [|vm_compute; reflexivity]. vm_compute. auto.
Qed.
Print Assumptions C53_smallest_refuted.

Example C53_example :
  let i := set_in_tap_scripts (m_put sk_controlblock (fx_cb 2) (fx_single, 192) (m_put sk_controlblock (fx_cb 0) (fx_multi, 192) [])) fx_tap in
  final_script_sig_and_witness [i] i = Ok ([], [ser_tsig fx_tsig; fx_single; ser_controlblock (fx_cb 2)])
  /\ final_script_sig_and_witness [set_in_tap_key_sig (Some fx_tsig) i] (set_in_tap_key_sig (Some fx_tsig) i) = Ok ([], [ser_tsig fx_tsig])
  /\ final_script_sig_and_witness [set_in_tap_script_sigs [] i] (set_in_tap_script_sigs [] i) = Err IECouldNotSatisfyTr
  /\ (wire_size fx_other, wire_size fx_chosen, prefix_size fx_other, prefix_size fx_chosen) = (521, 524, 5, 16).
Proof. vm_compute. auto. Qed.
